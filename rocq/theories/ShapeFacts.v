(** Facts about the shaping of report tables. *)
From Coq Require Import List ZArith String Bool Arith Lia Permutation Sorted.
From Verif Require Import AMap Shape ShapeSpec.
Import ListNotations.
Local Notation length := List.length.

Lemma mem_spec x l : mem x l = true <-> In x l.
Proof. unfold mem. destruct (in_dec string_dec x l); split; intros; try discriminate; tauto. Qed.
Lemma mem_false x l : mem x l = false <-> ~ In x l.
Proof. rewrite <- mem_spec. destruct (mem x l); split; congruence. Qed.
Lemma distinct_spec l : distinct l = true <-> NoDup l.
Proof.
  induction l as [|x l IH]; cbn; [split; [constructor|reflexivity]|].
  rewrite andb_true_iff, negb_true_iff, mem_false, IH. split.
  - intros [A B]; now constructor.
  - intros H; inversion H; auto.
Qed.

(** *** Blocks *)
Lemma nth_error_blocks {A B} (f : A -> list B) k l : (forall x, In x l -> length (f x) = k) ->
  forall i j, j < k ->
  nth_error (flat_map f l) (i * k + j) = match nth_error l i with Some x => nth_error (f x) j | None => None end.
Proof.
  induction l as [|x l IH]; intros H i j Hj; cbn.
  - destruct (i * k + j), i; reflexivity.
  - destruct i as [|i].
    + cbn. rewrite nth_error_app1; [reflexivity|]. rewrite H by now left. exact Hj.
    + rewrite nth_error_app2 by (rewrite H by (now left); cbn; lia). rewrite H by now left.
      replace (S i * k + j - k) with (i * k + j) by (cbn; lia). cbn. apply IH; [|exact Hj].
      intros y Hy. apply H. now right.
Qed.
Lemma length_blocks {A B} (f : A -> list B) k l : (forall x, In x l -> length (f x) = k) ->
  length (flat_map f l) = length l * k.
Proof.
  induction l as [|x l IH]; intros H; cbn; [reflexivity|].
  rewrite app_length, IH by (intros; apply H; now right). rewrite H by now left. lia.
Qed.
Lemma nth_error_repeat_ {A} (x : A) n i : i < n -> nth_error (repeat x n) i = Some x.
Proof. revert i; induction n; intros [|i] H; cbn; try lia; [reflexivity|apply IHn; lia]. Qed.
Lemma nth_error_seq_ n i a : i < n -> nth_error (seq a n) i = Some (a + i).
Proof.
  revert i a; induction n as [|n IH]; intros [|i] a H; cbn; try lia; [f_equal; lia|].
  rewrite IH by lia. f_equal; lia.
Qed.
Lemma nth_error_nth_ {A} (l : list A) i d x : nth_error l i = Some x -> nth i l d = x.
Proof. revert i; induction l; intros [|i]; cbn; try discriminate; [congruence|apply IHl]. Qed.
Lemma nth_error_of_nth {A} (l : list A) i d : i < length l -> nth_error l i = Some (nth i l d).
Proof. revert i; induction l; intros [|i] H; cbn in *; try lia; [reflexivity|apply IHl; lia]. Qed.

Lemma NoDup_app_intro {A} (a b : list A) : NoDup a -> NoDup b -> (forall x, In x a -> ~ In x b) -> NoDup (a ++ b).
Proof.
  induction a as [|x a IH]; cbn; intros Na Nb D; [exact Nb|]. inversion Na; subst. constructor.
  - rewrite in_app_iff. intros [H|H]; [contradiction|]. exact (D x (or_introl eq_refl) H).
  - apply IH; auto.
Qed.
Lemma NoDup_map_filter {A B} (f : A -> B) p l : NoDup (map f l) -> NoDup (map f (filter p l)).
Proof.
  induction l as [|x l IH]; cbn; intros H; [constructor|]. inversion H; subst.
  destruct (p x); cbn; auto. constructor; auto. intros Hx. apply H2.
  apply in_map_iff in Hx as (y & <- & Hy). apply filter_In in Hy as [Hy _]. now apply in_map.
Qed.

(** *** Columns of a table *)
Lemma combine_app_ {A B} (a a' : list A) (b b' : list B) : length a = length b ->
  combine (a ++ a') (b ++ b') = combine a b ++ combine a' b'.
Proof. revert b; induction a; intros [|y b]; cbn; try discriminate; intros; [reflexivity|]. f_equal. apply IHa. lia. Qed.
Lemma combine_fst {A B} (a : list A) (b : list B) : length a = length b -> map fst (combine a b) = a.
Proof. revert b; induction a; intros [|y b]; cbn; try discriminate; intros; [reflexivity|]. f_equal. apply IHa. lia. Qed.
Lemma combine_snd {A B} (a : list A) (b : list B) : length a = length b -> map snd (combine a b) = b.
Proof. revert b; induction a; intros [|y b]; cbn; try discriminate; intros; [reflexivity|]. f_equal. apply IHa. lia. Qed.
Lemma combine_map2 {A B C} (f : A -> B) (g : A -> C) l : combine (map f l) (map g l) = map (fun x => (f x, g x)) l.
Proof. induction l; cbn; congruence. Qed.
Lemma filter_fst {A B} (p : A -> bool) (a : list A) (b : list B) : length a = length b ->
  filter p a = map fst (filter (fun x => p (fst x)) (combine a b)).
Proof.
  revert b; induction a as [|x a IH]; intros [|y b]; cbn; try discriminate; intros H; [reflexivity|].
  destruct (p x); cbn; rewrite (IH b) by lia; reflexivity.
Qed.

Lemma table_col b n f a : table b n -> In (f, a) (combine (b_fields b) (b_arrs b)) -> length a = n.
Proof. intros (_ & L & F & _) H. apply in_combine_r in H. rewrite Forall_forall in F. auto. Qed.
Lemma table_rows b n : table b n -> num_rows b = n.
Proof.
  intros (N & L & F & _). unfold num_rows. destruct (b_arrs b) as [|a l]; [congruence|].
  now inversion F.
Qed.
Lemma NoDup_fst_inj {A B C} (g : A -> C) (l : list (A * B)) x y : NoDup (map (fun z => g (fst z)) l) ->
  In x l -> In y l -> g (fst x) = g (fst y) -> x = y.
Proof.
  induction l as [|z l IH]; cbn; [contradiction|]. intros H. inversion H as [|? ? H1 H2]; subst.
  intros [<-|Hx] [<-|Hy] E; auto.
  - exfalso. apply H1. rewrite E. apply (in_map (fun z => g (fst z))). exact Hy.
  - exfalso. apply H1. rewrite <- E. apply (in_map (fun z => g (fst z))). exact Hx.
Qed.
Lemma table_inj b n f a f' a' : table b n -> In (f, a) (combine (b_fields b) (b_arrs b)) ->
  In (f', a') (combine (b_fields b) (b_arrs b)) -> f_name f = f_name f' -> (f, a) = (f', a').
Proof.
  intros (N & L & F & D & _) H H' E.
  apply (NoDup_fst_inj f_name (combine (b_fields b) (b_arrs b))); auto.
  rewrite <- (map_map fst f_name), combine_fst; assumption.
Qed.
Lemma shows_fun b n c i v v' : table b n -> shows b c i v -> shows b c i v' -> v = v'.
Proof.
  intros T (f & a & H & E & X) (f' & a' & H' & E' & X').
  assert (Q : (f, a) = (f', a')) by (eapply table_inj; eauto; congruence).
  injection Q as <- <-. congruence.
Qed.
Lemma shows_lt b n c i v : table b n -> shows b c i v -> i < n.
Proof.
  intros T (f & a & H & E & X). rewrite <- (table_col _ _ _ _ T H).
  apply nth_error_Some. rewrite X. discriminate.
Qed.
Lemma in_combine_ex {A B} (a : list A) (b : list B) x : length a = length b -> In x a -> exists y, In (x, y) (combine a b).
Proof.
  intros L H. rewrite <- (combine_fst a b L) in H. apply in_map_iff in H as ([x' y] & <- & H). eauto.
Qed.
Lemma shows_ex b n c i : table b n -> In c (map f_name (b_fields b)) -> i < n -> exists v, shows b c i v.
Proof.
  intros T Hc Hi. apply in_map_iff in Hc as (f & <- & Hf).
  destruct T as (N & L & F & D & Z). assert (T : table b n) by (split; auto).
  destruct (in_combine_ex _ (b_arrs b) _ L Hf) as (a & Ha).
  destruct (nth_error a i) as [v|] eqn:E.
  - exists v, f, a. auto.
  - apply nth_error_None in E. rewrite (table_col _ _ _ _ T Ha) in E. lia.
Qed.
Lemma shows_name b c i v : shows b c i v -> In c (map f_name (b_fields b)).
Proof. intros (f & a & H & <- & _). apply in_map. now apply in_combine_l in H. Qed.

Lemma try_new_table fs arrs n : arrs <> [] -> length fs = length arrs -> Forall (fun a => length a = n) arrs ->
  NoDup (map f_name fs) -> (forall f a, In (f, a) (combine fs arrs) -> f_null f = false -> ~ In None a) ->
  try_new fs arrs = Some (mkBatch fs arrs) /\ table (mkBatch fs arrs) n.
Proof.
  intros N L F D Z. split; [|now split; [|split; [|split; [|split]]]].
  unfold try_new. destruct arrs as [|a0 l]; [congruence|].
  assert (E0 : length a0 = n) by now inversion F.
  rewrite L, Nat.eqb_refl. cbn [andb].
  replace (forallb _ (a0 :: l)) with true.
  2:{ symmetry. apply forallb_forall. intros a Ha. rewrite Forall_forall in F. rewrite (F _ Ha), E0. apply Nat.eqb_refl. }
  cbn [andb]. replace (forallb _ _) with true; [reflexivity|].
  symmetry. apply forallb_forall. intros [f a] Hfa. cbn [fst snd].
  destruct (f_null f) eqn:Ef; [reflexivity|]. cbn. apply forallb_forall. intros [x|] Hx; [reflexivity|].
  exfalso. exact (Z f a Hfa Ef Hx).
Qed.
Lemma try_new_inv fs arrs b : try_new fs arrs = Some b -> b = mkBatch fs arrs.
Proof. unfold try_new. destruct arrs; [discriminate|]. match goal with |- context [if ?c then _ else _] => destruct c end; congruence. Qed.

Lemma mapO_Forall2 {A B} (f : A -> option B) l l' : Forall2 (fun x y => f x = Some y) l l' -> mapO f l = Some l'.
Proof. induction 1; cbn; [reflexivity|]. now rewrite H, IHForall2. Qed.
Lemma mapO_inv {A B} (f : A -> option B) l l' : mapO f l = Some l' -> Forall2 (fun x y => f x = Some y) l l'.
Proof.
  revert l'; induction l as [|x l IH]; cbn; intros l'; [intros [= <-]; constructor|].
  destruct (f x) eqn:E; [|discriminate]. destruct (mapO f l); [|discriminate]. intros [= <-]. constructor; auto.
Qed.
Lemma Forall2_build {A B} (P : A -> B -> Prop) l : (forall x, In x l -> exists y, P x y) -> exists l', Forall2 P l l'.
Proof.
  induction l as [|x l IH]; intros H; [exists []; constructor|].
  destruct IH as (l' & Hl); [intros; apply H; now right|]. destruct (H x) as (y & Hy); [now left|].
  exists (y :: l'). now constructor.
Qed.

(** *** Unpivot *)
Lemma cast_ok v d : decimal_of v d -> cast_dec v = Some (CDec d).
Proof.
  destruct 1 as [z H|d]; unfold cast_dec; [|reflexivity].
  assert (E : (Z.abs (z * SCALE) <? DEC_LIMIT)%Z = true); [|rewrite E; reflexivity].
  apply Z.ltb_lt. rewrite Z.abs_mul. unfold SCALE, DEC_LIMIT.
  assert (E1 : Z.abs (10 ^ 16) = (10 ^ 16)%Z) by (vm_compute; reflexivity). rewrite E1.
  assert (E2 : (10 ^ 28)%Z = (10 ^ 12 * 10 ^ 16)%Z) by (vm_compute; reflexivity). rewrite E2.
  apply Z.mul_lt_mono_pos_r; [vm_compute; reflexivity|exact H].
Qed.

Section Unpivot.
Variables (b : Batch) (n : nat) (cols : list string) (nc vc : string).
Let ps := combine (b_fields b) (b_arrs b).
Let gs := filter (fun fa : Field * Arr => negb (mem (f_name (fst fa)) cols)) ps.
Let ms := filter (fun fa : Field * Arr => mem (f_name (fst fa)) cols) ps.
Let k := length cols.
Hypothesis T : table b n.
Hypothesis Hne : cols <> [].
Hypothesis Hin : forall c, In c cols -> In c (map f_name (b_fields b)).
Hypothesis Hnc : ~ In nc (map f_name (b_fields b)).
Hypothesis Hvc : ~ In vc (map f_name (b_fields b)).
Hypothesis Hd : nc <> vc.
Hypothesis Hty : forall f, In f (b_fields b) -> ~ In (f_name f) cols -> f_ty f <> TOther.
Hypothesis Hord : filter (fun c => mem c cols) (map f_name (b_fields b)) = cols.
Hypothesis Hnum : forall c i v, In c cols -> shows b c i v -> exists d, decimal_of v d.

Let L : length (b_fields b) = length (b_arrs b) := proj1 (proj2 T).
Lemma ms_names : map (fun fa => f_name (fst fa)) ms = cols.
Proof.
  rewrite <- Hord. unfold ms, ps. rewrite <- (combine_fst _ _ L) at 2. generalize (combine (b_fields b) (b_arrs b)) as l.
  induction l as [|[f a] l IH]; cbn; [reflexivity|]. destruct (mem (f_name f) cols); cbn; now rewrite IH.
Qed.
Lemma ms_len : length ms = k.
Proof. unfold k. rewrite <- ms_names at 1. now rewrite map_length. Qed.
Lemma cols_nodup : NoDup cols.
Proof. rewrite <- Hord. apply NoDup_filter. apply T. Qed.

Definition u_values := map (fun fa : Field * Arr => map cast_dec (snd fa)) ms.
Definition u_name_arr : Arr := flat_map (fun _ => map (fun c => Some (CText c)) cols) (seq 0 n).
Definition u_value_arr : Arr := flat_map (fun i => map (fun a : Arr => nth i a None) u_values) (seq 0 n).
Definition u_group_arrs := map (fun fa : Field * Arr => flat_map (fun v => repeat v k) (snd fa)) gs.
Definition u_fields := (filter (fun f => negb (mem (f_name f) cols)) (b_fields b) ++
             [mkField nc TText false; mkField vc TDec false])%list.
Definition u_arrs := (u_group_arrs ++ [u_name_arr; u_value_arr])%list.

Lemma u_gfields : filter (fun f => negb (mem (f_name f) cols)) (b_fields b) = map fst gs.
Proof. unfold gs, ps. apply (filter_fst (fun f => negb (mem (f_name f) cols))). exact L. Qed.
Lemma u_combine : combine u_fields u_arrs =
  (map (fun fa => (fst fa, flat_map (fun v => repeat v k) (snd fa))) gs ++
   [(mkField nc TText false, u_name_arr); (mkField vc TDec false, u_value_arr)])%list.
Proof.
  unfold u_fields, u_arrs, u_group_arrs. rewrite u_gfields, combine_app_ by now rewrite !map_length.
  now rewrite combine_map2.
Qed.
Lemma value_cell i j c v : nth_error cols j = Some c -> shows b c i v ->
  nth_error u_value_arr (i * k + j) = Some (cast_dec v).
Proof.
  intros Hj Hs. pose proof (shows_lt _ _ _ _ _ T Hs) as Hi.
  assert (Hjk : j < k) by (apply nth_error_Some; rewrite Hj; discriminate).
  unfold u_value_arr. rewrite nth_error_blocks; [|intros; unfold u_values; rewrite !map_length; apply ms_len|exact Hjk].
  rewrite nth_error_seq_ by exact Hi. cbn [plus].
  destruct (nth_error ms j) as [[f a]|] eqn:Em.
  2:{ apply nth_error_None in Em. rewrite ms_len in Em. lia. }
  assert (Ef : f_name f = c).
  { pose proof ms_names as M. rewrite <- M in Hj. erewrite map_nth_error in Hj by exact Em. cbn in Hj. congruence. }
  destruct Hs as (f' & a' & Hf' & Ef' & Ea').
  assert (Q : (f, a) = (f', a')).
  { eapply table_inj; eauto; [|congruence]. apply nth_error_In in Em. unfold ms in Em. apply filter_In in Em as [Em _]. exact Em. }
  injection Q as <- <-.
  unfold u_values. rewrite map_map.
  erewrite map_nth_error by exact Em. cbn. f_equal.
  apply nth_error_nth_. now apply map_nth_error.
Qed.
Lemma unpivot_ok : unpivot_fields (b_fields b) cols nc vc = Some u_fields /\
  unpivot b u_fields cols = Some (mkBatch u_fields u_arrs) /\
  table (mkBatch u_fields u_arrs) (n * k).
Proof.
  assert (Hk : forall x : nat, In x (seq 0 n) -> length (map (fun a : Arr => nth x a None) u_values) = k)
    by (intros; unfold u_values; rewrite !map_length; apply ms_len).
  assert (Tn : try_new u_fields u_arrs = Some (mkBatch u_fields u_arrs) /\ table (mkBatch u_fields u_arrs) (n * k)).
  { apply try_new_table.
    - unfold u_arrs. destruct u_group_arrs; discriminate.
    - unfold u_fields, u_arrs, u_group_arrs. rewrite u_gfields, !app_length, !map_length. reflexivity.
    - unfold u_arrs. apply Forall_app. split; [|constructor; [|constructor; [|constructor]]].
      + unfold u_group_arrs. apply Forall_forall. intros x Hx. apply in_map_iff in Hx as ([f a] & <- & Hx). cbn.
        unfold gs in Hx. apply filter_In in Hx as [Hx _].
        rewrite (length_blocks _ k) by (intros; apply repeat_length). now rewrite (table_col _ _ _ _ T Hx).
      + unfold u_name_arr. rewrite (length_blocks _ k) by (intros; apply map_length). now rewrite seq_length.
      + unfold u_value_arr. rewrite (length_blocks _ k) by exact Hk. now rewrite seq_length.
    - unfold u_fields. rewrite map_app. cbn [map f_name].
      apply NoDup_app_intro.
      + apply NoDup_map_filter. apply T.
      + constructor; [intros [E|[]]; congruence|constructor; [intros []|constructor]].
      + intros x Hx [<-|[<-|[]]]; apply in_map_iff in Hx as (f & E & Hf); apply filter_In in Hf as [Hf _].
        * apply Hnc. rewrite <- E. now apply in_map.
        * apply Hvc. rewrite <- E. now apply in_map.
    - rewrite u_combine. intros f a H Ef. apply in_app_iff in H as [H|H].
      + apply in_map_iff in H as ([f0 a0] & E & H). injection E as <- <-. cbn in *.
        unfold gs in H. apply filter_In in H as [H _]. intros Hx. apply in_flat_map in Hx as (v & Hv & Hx).
        apply repeat_spec in Hx as <-. exact (proj2 (proj2 (proj2 (proj2 T))) _ _ H Ef Hv).
      + cbn [In] in H. destruct H as [H|[H|[]]]; injection H as <- <-.
        * intros Hx. apply in_flat_map in Hx as (? & _ & Hx). apply in_map_iff in Hx as (? & ? & _). discriminate.
        * intros Hx. unfold u_value_arr in Hx. apply in_flat_map in Hx as (i & Hi & Hx).
          unfold u_values in Hx. rewrite map_map in Hx. apply in_map_iff in Hx as ([f a] & E & Hx). cbn in E.
          apply in_seq in Hi. unfold ms in Hx. apply filter_In in Hx as [Hx Hm]. apply mem_spec in Hm. cbn in Hm.
          pose proof (table_col _ _ _ _ T Hx) as La.
          destruct (nth_error a i) as [v|] eqn:Ev; [|apply nth_error_None in Ev; lia].
          destruct (Hnum (f_name f) i v Hm) as (d & Hd'); [exists f, a; auto|].
          rewrite (nth_error_nth_ _ _ _ _ (map_nth_error cast_dec _ _ Ev)), (cast_ok _ _ Hd') in E. discriminate. }
  split; [|split; [|apply Tn]].
  - unfold unpivot_fields. rewrite (proj2 (distinct_spec _) cols_nodup). cbn [andb].
    replace (forallb _ cols) with true; [reflexivity|]. symmetry. apply forallb_forall. intros c Hc.
    apply mem_spec. auto.
  - unfold unpivot. fold ps gs ms.
    replace (existsb _ gs) with false.
    2:{ symmetry. apply not_true_is_false. intros E. apply existsb_exists in E as ([f a] & Hf & E). cbn in E.
        unfold gs in Hf. apply filter_In in Hf as [Hf Hm]. cbn in Hm. apply negb_true_iff in Hm. rewrite mem_false in Hm.
        apply (Hty f); auto; [now apply in_combine_l in Hf|]. destruct (f_ty f); try discriminate; reflexivity. }
    rewrite (table_rows _ _ T). fold k.
    assert (Hv : exists v0 r, u_values = v0 :: r /\ length v0 = n).
    { unfold u_values. pose proof ms_len as ML. 
      assert (Hms : forall x, In x ms -> In x ps) by (intros x Hx; unfold ms in Hx; apply filter_In in Hx; tauto).
      clearbody ms. clear - ML Hms Hne T. destruct ms as [|[f a] r]; cbn in ML.
      - unfold k in ML. destruct cols; [congruence|discriminate].
      - exists (map cast_dec a), (map (fun fa : Field * Arr => map cast_dec (snd fa)) r). cbn. split; [reflexivity|].
        rewrite map_length. eapply table_col; [exact T|]. apply Hms. now left. }
    destruct Hv as (v0 & r & Ev & Ln).
    unfold u_values in Ev. rewrite Ev. rewrite Ln, <- Ev. exact (proj1 Tn).
Qed.
Lemma unpivot_shows i j c : i < n -> nth_error cols j = Some c ->
  let out := mkBatch u_fields u_arrs in
  shows out nc (i * k + j) (Some (CText c)) /\
  (forall v d, shows b c i v -> decimal_of v d -> shows out vc (i * k + j) (Some (CDec d))) /\
  (forall g v, ~ In g cols -> shows b g i v -> shows out g (i * k + j) v).
Proof.
  intros Hi Hj out. assert (Hjk : j < k) by (apply nth_error_Some; rewrite Hj; discriminate).
  split; [|split].
  - exists (mkField nc TText false), u_name_arr. cbn [b_fields b_arrs out]. rewrite u_combine. split; [|split; [reflexivity|]].
    + apply in_app_iff. right. now left.
    + unfold u_name_arr. rewrite nth_error_blocks by (intros; try apply map_length; exact Hjk).
      rewrite nth_error_seq_ by exact Hi. exact (map_nth_error (fun c => Some (CText c)) _ _ Hj).
  - intros v d Hs Hd'. exists (mkField vc TDec false), u_value_arr. cbn [b_fields b_arrs out]. rewrite u_combine.
    split; [|split; [reflexivity|]].
    + apply in_app_iff. right. right. now left.
    + rewrite (value_cell _ _ _ _ Hj Hs). now rewrite (cast_ok _ _ Hd').
  - intros g v Hg (f & a & H & Ef & Ea). exists f, (flat_map (fun v => repeat v k) a).
    cbn [b_fields b_arrs out]. rewrite u_combine. split; [|split; [exact Ef|]].
    + apply in_app_iff. left. apply in_map_iff. exists (f, a). split; [reflexivity|].
      unfold gs. apply filter_In. split; [exact H|]. cbn. apply negb_true_iff, mem_false. congruence.
    + rewrite nth_error_blocks by (intros; try apply repeat_length; exact Hjk). rewrite Ea.
      now apply nth_error_repeat_.
Qed.
End Unpivot.
