(** Facts about properties aggregated per user, and about counted events. *)
From Coq Require Import List ZArith QArith Qcanon Qcabs Bool Lia.
From Verif Require Import Aggregate AggSpec AggFacts Numbers NumbersSpec NumbersFacts NumbersCells.
Import ListNotations.
Local Open Scope Qc_scope.
Lemma M16_int : M16 = of_int (10 ^ 16). Proof. reflexivity. Qed.
Local Opaque f32_max f64_max M16 of_int.

(** ** The aggregate of one user fits the column of such aggregates *)
Lemma int_sum l : (forall x, In x l -> exists z, x = of_int z) -> exists z, qsum l = of_int z.
Proof.
  induction l as [|x l IH]; intros H; [exists 0%Z; symmetry; exact of_int_0|].
  destruct (H x (or_introl eq_refl)) as (a & ->). destruct IH as (b & E); [intros; apply H; now right|].
  exists (a + b)%Z. now rewrite qsum_cons, E, of_int_add.
Qed.
Lemma pos_sum l : (forall x, In x l -> 0 <= x) -> 0 <= qsum l.
Proof.
  induction l as [|x l IH]; intros H; [apply Qcle_refl|]. rewrite qsum_cons. apply le_add_l; [apply H; now left|apply IH; intros; apply H; now right].
Qed.
Lemma good_int dt w : good dt w -> int_range dt <> None -> exists z lo hi, w * scale dt = of_int z /\ int_range dt = Some (lo, hi) /\ (lo <= z <= hi)%Z.
Proof. unfold good, storable. destruct (int_range dt) as [[lo hi]|]; [|congruence]. intros (z & E & H) _. eauto 6. Qed.
Lemma biggest_64 z : Qcabs (of_int z) <= of_int (2 ^ 63 - 1) -> (- (2 ^ 63 - 1) <= z <= 2 ^ 63 - 1)%Z.
Proof. intros H. now apply abs_range in H. Qed.
Lemma user_good dt f ws v : is_number dt = true -> (forall w, In w ws -> good dt w) -> ws <> [] -> room dt f ws -> is_agg f ws v -> good (kind dt f) v.
Proof.
  intros Nm G Hne R A. destruct f; cbn [is_agg room] in *.
  - subst v. assert (B : Qcabs (qsum ws) <= biggest dt) by (eapply Qcle_trans; [apply abs_qsum|exact R]).
    destruct dt; try discriminate Nm; cbn [kind biggest] in *; unfold good in *; cbn [storable int_range scale] in *; rewrite ?Qcmult_1_r.
    1-3,5-7: destruct (int_sum ws) as (z & E); [intros x Hx; destruct (G x Hx) as (z & E & _); rewrite Qcmult_1_r in E; eauto|];
      rewrite E in *; exists z; split; [reflexivity|].
    1-3: apply biggest_64 in B; lia.
    1-3: apply biggest_64 in B; split; [|lia]; apply int_le; rewrite <- E, of_int_0; apply pos_sum; intros x Hx;
      destruct (G x Hx) as (y & Ey & Hy); rewrite Qcmult_1_r in Ey; rewrite Ey, <- of_int_0; apply le_int; lia.
    1,2: destruct (int_sum ws) as (z & E); [intros x Hx; destruct (G x Hx) as (z & E & _); rewrite Qcmult_1_r in E; eauto|];
      rewrite E in *; exists (z * 10 ^ 16)%Z; (split; [now rewrite M16_int, of_int_mul|]);
      apply (mul_le _ _ (of_int (10 ^ 16)) m16_pos) in B; rewrite <- abs_mul_pos in B by exact m16_pos; rewrite <- of_int_mul in B;
      unfold big_decimal in B; rewrite div_mul in B by exact m16_nz; apply abs_range in B; lia.
    + exact B.
    + exact B.
    + destruct (int_sum (map (fun w => w * M16) ws)) as (z & E).
      { intros x Hx. apply in_map_iff in Hx. destruct Hx as (w & <- & Hw). destruct (G w Hw) as (z & E & _). eauto. }
      rewrite qsum_scale in E. exists z. split; [exact E|].
      unfold big_decimal in B. apply (mul_le _ _ (of_int (10 ^ 16)) m16_pos) in B. rewrite <- abs_mul_pos in B by exact m16_pos. rewrite div_mul in B by exact m16_nz.
      rewrite <- M16_int in B. rewrite E in B. apply abs_range in B. lia.
  - apply G. now apply A.
  - apply G. now apply A.
  - unfold good. cbn [kind storable int_range scale]. rewrite Qcmult_1_r. eapply avg_bound; eauto. intros x Hx. eapply good_decimal; eauto.
  - subst v. unfold good. cbn [kind storable int_range scale]. rewrite Qcmult_1_r. exists (Z.of_nat (length ws)). split; [apply qlen_int|].
    rewrite qlen_int in R. apply int_le in R. lia.
Qed.

(** ** Plans *)
Definition inner_prim (dt : DT) (f : Fn) (p : Prim) : Prop :=
  final_prim (kind dt f) = Some p \/ (dt = DUInt64 /\ f = Sum /\ p = U128).
Lemma plan_per_user_ok dt fi fo : is_number dt = true -> exists s, plan_per_user dt fi fo = Done s /\
  pu_dt s = kind (kind dt fi) fo /\ final_prim (kind (kind dt fi) fo) = Some (pu_ot s) /\ pu_comb s = pu_ot s /\ inner_prim dt fi (pu_it s) /\
  (width (pu_t s) <> None \/ width (pu_it s) = None \/ fi = Cnt) /\
  (fo <> Cnt -> pu_mul s = factor (match fi with Cnt => DInt64 | _ => dt end) (kind (kind dt fi) fo)) /\
  (fo <> Cnt -> width (pu_it s) <> None \/ width (pu_ot s) = None).
Proof.
  intros Nm. destruct dt; try discriminate Nm; clear Nm; destruct fi, fo; (eexists; split; [reflexivity|]);
    repeat (split; [reflexivity|]); (split; [first [left; reflexivity|right; now repeat split]|]);
    (split; [first [left; discriminate|right; left; reflexivity|right; right; reflexivity]|]);
    (split; [intros F; first [now contradict F|reflexivity]|]);
    intros F; first [now contradict F|left; discriminate|right; reflexivity].
Qed.
Lemma biggest_inner dt p : is_number dt = true -> inner_prim dt Sum p -> within p (biggest dt * scale dt).
Proof.
  intros Nm [P|(-> & _ & ->)]; unfold within.
  - destruct dt; cbn [kind final_prim] in P; try discriminate; injection P as <-; cbn [width scale biggest]; try exact Logic.I; unfold big_decimal;
      rewrite ?Qcmult_1_r; [apply le_int; ints|apply le_int; ints|apply le_int; ints| |apply le_int; ints|apply le_int; ints|apply le_int; ints| |].
    1,2: apply Qcle_trans with (of_int (2 ^ 127 - 1)); [|apply le_int; ints];
      rewrite <- (div_mul (of_int (2 ^ 127 - 1)) (of_int (10 ^ 16)) m16_nz) at 2; rewrite <- (Qcmult_1_r (of_int (2 ^ 127 - 1) / of_int (10 ^ 16))) at 1;
      rewrite !(Qcmult_comm (of_int (2 ^ 127 - 1) / of_int (10 ^ 16))); apply Qcmult_le_compat_r; [rewrite <- of_int_1; apply le_int; lia|].
    3: rewrite (div_mul _ (of_int (10 ^ 16)) m16_nz); apply le_int; ints.
    all: vm_compute; discriminate.
  - cbn [width scale biggest]. rewrite Qcmult_1_r. vm_compute. discriminate.
Qed.
Lemma inner_exact dt p v : is_number dt = true -> inner_prim dt Sum p -> storable dt v -> Qcabs (worth dt v) <= biggest dt -> exact p v.
Proof.
  intros Nm [P|(-> & _ & ->)] G B.
  - eapply raw_exact; eauto. apply result_exact with (f := Sum); auto; [discriminate|now apply good_worth].
  - destruct G as (z & -> & R). exists z. split; [reflexivity|ints].
Qed.
Lemma raw_scaled dt l : l = map (fun w => w * scale dt) (map (worth dt) l).
Proof. rewrite map_map. rewrite <- (map_id l) at 1. apply map_ext. intros v. now rewrite worth_scale. Qed.
Lemma inner_runs dt f t p vs : is_number dt = true -> inner_prim dt f p -> (width t <> None \/ width p = None \/ f = Cnt) ->
  (forall v, In v vs -> storable dt v) -> room dt f (map (worth dt) vs) ->
  runs p f (map (cast t p) vs) /\ (f <> Cnt -> map (cast t p) vs = vs).
Proof.
  intros Nm I T G R.
  assert (X : f <> Cnt -> forall v, In v vs -> exact p v).
  { intros F v Hv. destruct f; try congruence.
    - eapply inner_exact; eauto. eapply Qcle_trans; [|exact R]. apply abs_le_sum. now apply in_map.
    - destruct I as [P|(_ & ? & _)]; [|discriminate]. cbn [kind] in P. pose proof (result_exact dt Min p (worth dt v) Nm P ltac:(discriminate) (good_worth dt v (G v Hv)) ltac:(discriminate)) as E.
      cbn [kind] in E. now rewrite worth_scale in E.
    - destruct I as [P|(_ & ? & _)]; [|discriminate]. cbn [kind] in P. pose proof (result_exact dt Max p (worth dt v) Nm P ltac:(discriminate) (good_worth dt v (G v Hv)) ltac:(discriminate)) as E.
      cbn [kind] in E. now rewrite worth_scale in E.
    - destruct I as [P|(_ & ? & _)]; [|discriminate]. injection P as <-. exact Logic.I. }
  assert (E : f <> Cnt -> map (cast t p) vs = vs).
  { intros F. rewrite <- (map_id vs) at 2. apply map_ext_in. intros v Hv. apply cast_exact; [auto|]. destruct T as [T|[T|T]]; auto; congruence. }
  split; [|exact E]. destruct f; cbn [runs room] in *.
  - rewrite E by discriminate. split; [apply X; discriminate|]. eapply within_mono; [|apply biggest_inner; eauto].
    rewrite (raw_scaled dt vs) at 1. rewrite abs_scaled by apply scale_pos. apply mul_le; [apply scale_pos|exact R].
  - rewrite E by discriminate. destruct I as [P|(_ & ? & _)]; [|discriminate]. cbn [kind] in P. intros x Hx. rewrite <- (worth_scale dt x). apply result_bounds; auto. apply good_worth; auto.
  - rewrite E by discriminate. destruct I as [P|(_ & ? & _)]; [|discriminate]. cbn [kind] in P. intros x Hx. rewrite <- (worth_scale dt x). apply result_bounds; auto. apply good_worth; auto.
  - destruct I as [P|(_ & ? & _)]; [|discriminate]. injection P as <-. reflexivity.
  - destruct I as [P|(_ & ? & _)]; [|discriminate]. injection P as <-. rewrite qlen_map in *. exact R.
Qed.

(** ** The value that a user adds to the cell *)
Definition user_raw (s : PerUser) (fi : Fn) (vs : list Qc) : Qc := run_all (pu_it s) fi (map (cast (pu_t s) (pu_it s)) vs).
Definition unit_of (dt : DT) (fi : Fn) : DT := match fi with Cnt => DInt64 | _ => dt end.
Definition user_worth (dt : DT) (s : PerUser) (fi : Fn) (vs : list Qc) : Qc := user_raw s fi vs / scale (unit_of dt fi).
Definition outer (s : PerUser) (a : Qc) : Qc := times (pu_ot s) (cast (pu_it s) (pu_ot s) a) (pu_mul s).

Lemma user_agg dt fi fo s vs : is_number dt = true -> plan_per_user dt fi fo = Done s ->
  (forall v, In v vs -> storable dt v) -> room dt fi (map (worth dt) vs) ->
  is_agg fi (map (worth dt) vs) (user_worth dt s fi vs).
Proof.
  intros Nm Hs G R. destruct (plan_per_user_ok dt fi fo Nm) as (s' & Hs' & _ & _ & _ & Ip & T & _). rewrite Hs in Hs'. injection Hs' as <-.
  destruct (inner_runs dt fi (pu_t s) (pu_it s) vs Nm Ip T G R) as [RN E]. pose proof (stage _ _ _ RN) as A.
  fold (run_all (pu_it s) fi (map (cast (pu_t s) (pu_it s)) vs)) in A. fold (user_raw s fi vs) in A. unfold user_worth.
  remember (user_raw s fi vs) as raw eqn:Er. clear Er.
  assert (D : fi = Cnt \/ fi <> Cnt) by (destruct fi; auto; right; discriminate). destruct D as [-> |F].
  - cbn [unit_of scale is_agg] in *. rewrite A, !qlen_map. field. discriminate.
  - rewrite (E F), (raw_scaled dt vs) in A. apply is_agg_scale in A; auto using scale_pos. replace (unit_of dt fi) with dt by (destruct fi; auto; congruence). exact A.
Qed.
Lemma user_outer dt fi fo s vs : is_number dt = true -> plan_per_user dt fi fo = Done s ->
  (forall v, In v vs -> storable dt v) -> vs <> [] -> room dt fi (map (worth dt) vs) -> fo <> Cnt ->
  (fo = Sum -> Qcabs (user_worth dt s fi vs) <= biggest (kind dt fi)) ->
  outer s (user_raw s fi vs) = user_worth dt s fi vs * scale (kind (kind dt fi) fo).
Proof.
  intros Nm Hs G Hne R F B. pose proof (user_agg dt fi fo s vs Nm Hs G R) as A.
  destruct (plan_per_user_ok dt fi fo Nm) as (s' & Hs' & _ & P & _ & _ & _ & Em & Ew). rewrite Hs in Hs'. injection Hs' as <-.
  specialize (Em F). specialize (Ew F). fold (unit_of dt fi) in Em.
  assert (GW : good (kind dt fi) (user_worth dt s fi vs)).
  { apply (user_good dt fi (map (worth dt) vs)); [exact Nm| |now apply map_nil|exact R|exact A]. intros w Hw. apply in_map_iff in Hw. destruct Hw as (v & <- & Hv). apply good_worth; auto. }
  assert (Nk : is_number (kind dt fi) = true) by (destruct dt, fi; try discriminate Nm; reflexivity).
  pose proof (result_exact (kind dt fi) fo (pu_ot s) _ Nk P F GW B) as E.
  assert (Er : user_raw s fi vs = user_worth dt s fi vs * scale (unit_of dt fi)) by (unfold user_worth; symmetry; apply div_mul, scale_nz).
  unfold outer. rewrite Er, Em. unfold times.
  pose proof (factor_scale (unit_of dt fi) (kind (kind dt fi) fo) (user_worth dt s fi vs)) as FS. rewrite <- FS in E. rewrite <- FS.
  rewrite cast_exact; [now rewrite hold_exact| |exact Ew].
  (* the raw value fits the type of the results *)
  destruct (width (pu_ot s)) as [[sg b]|] eqn:W; [|unfold exact; now rewrite W].
  assert (RX : exact (pu_ot s) (user_worth dt s fi vs * scale (kind dt fi))).
  { eapply (raw_exact (kind dt fi)); [exact Nk|exact GW|exact P| |].
    - rewrite <- (factor_scale (kind dt fi)), worth_scale, factor_scale, <- FS. exact E.
    - destruct fo; auto; [injection P as P; rewrite <- P in W; discriminate|congruence]. }
  assert (D : scale (unit_of dt fi) = scale (kind dt fi) \/ (fi = Sum /\ (dt = DInt64 \/ dt = DUInt64)) \/ (dt = DDec /\ fi = Avg)).
  { destruct dt; try discriminate Nm; destruct fi; cbn [unit_of kind scale]; auto 6. }
  destruct D as [-> |[(-> & D)|(-> & ->)]]; [exact RX| |].
  - cbn [is_agg] in A. rewrite A in *. destruct (int_sum (map (worth dt) vs)) as (z & Ez).
    { intros x Hx. apply in_map_iff in Hx. destruct Hx as (v & <- & Hv). specialize (G v Hv). destruct D as [-> | ->]; destruct G as (y & -> & _); exists y; reflexivity. }
    rewrite Ez in *. assert (Eu : scale (unit_of dt Sum) = 1) by (destruct D as [-> | ->]; reflexivity). rewrite Eu, Qcmult_1_r.
    assert (Ek : scale (kind dt Sum) = of_int (10 ^ 16)) by (destruct D as [-> | ->]; exact M16_int). rewrite Ek, <- of_int_mul in RX.
    unfold exact in *. rewrite W in *. destruct RX as (y & Ey & Hy). apply of_int_inj in Ey. subst y. exists z. split; [reflexivity|].
    revert Hy. unfold in_int, least_int, greatest_int. pose proof (width_pos _ _ _ W) as Pb. pose proof (Z.pow_nonneg 2 (b - 1)). pose proof (Z.pow_pos_nonneg 2 b). destruct sg; lia.
  - destruct fo; cbn in P; try (injection P as P; rewrite <- P in W; discriminate). congruence.
Qed.
Lemma per_user_worker_ok s fi fo us : us <> [] -> NoDup (map fst us) -> (forall u, In u us -> snd u <> []) ->
  per_user_worker s fi fo (rows_of_users us) = run_all (pu_ot s) fo (map (fun u => outer s (user_raw s fi (snd u))) us).
Proof.
  intros H1 H2 H3. unfold per_user_worker, run_all. rewrite users_ok by assumption. f_equal. rewrite !fold_map.
  revert H3. generalize (acc_new (pu_ot s) fo). clear. induction us as [|u us IH]; intros a H3; [reflexivity|]. cbn [fold_left].
  rewrite IH by (intros; apply H3; now right). f_equal. unfold outer, user_raw, run_all. now rewrite !fold_map.
Qed.
Lemma busy_map {A B} (g : list A -> list B) (l : list (list A)) : (forall w, In w l -> (g w = [] <-> w = [])) -> busy (map g l) = map g (busy l).
Proof.
  unfold busy. induction l as [|w l IH]; intros H; [reflexivity|]. cbn [map filter]. rewrite IH by (intros; apply H; now right).
  pose proof (H w (or_introl eq_refl)) as [H1 H2]. destruct w as [|a w]; [now rewrite H2|]. destruct (g (a :: w)) eqn:E; [discriminate (H1 eq_refl)|]. cbn [map]. now rewrite E.
Qed.
Lemma rows_nil {V} (us : list (Z * list V)) : (forall u, In u us -> snd u <> []) -> (rows_of_users us = [] <-> us = []).
Proof.
  intros H. split; [|intros ->; reflexivity]. destruct us as [|[q vs] us]; [reflexivity|]. specialize (H _ (or_introl eq_refl)).
  destruct vs; [now contradict H|discriminate].
Qed.
Lemma nodup_part {A B} (g : A -> B) ls l : NoDup (map g (concat ls)) -> In l ls -> NoDup (map g l).
Proof.
  induction ls as [|l' ls IH]; [intros _ []|]. cbn [concat]. rewrite map_app. intros H [-> |Hl].
  - clear IH. induction (map g l) as [|x t IH]; constructor.
    + inversion_clear H as [|? ? H1 H2]. intros C. apply H1. apply in_or_app. now left.
    + inversion_clear H. auto.
  - apply IH; [|exact Hl]. clear - H. induction (map g l') as [|x t IH]; [exact H|]. inversion_clear H. auto.
Qed.
Lemma forall2_map {A B} (P : A -> B -> Prop) g l : (forall a, In a l -> P a (g a)) -> Forall2 P l (map g l).
Proof. induction l as [|x l IH]; intros H; constructor; [apply H; now left|apply IH; intros; apply H; now right]. Qed.

Lemma per_user_ok dt fi fo users : is_number dt = true -> NoDup (map fst (concat users)) ->
  (forall u, In u (concat users) -> snd u <> [] /\ (forall v, In v (snd u) -> storable dt v) /\ room dt fi (map (worth dt) (snd u))) ->
  busy users <> [] -> (fo = Avg -> length (busy users) = 1%nat) ->
  (forall ws, Forall2 (fun u w => is_agg fi (map (worth dt) (snd u)) w) (concat users) ws -> room (kind dt fi) fo ws) ->
  exists ws v, Forall2 (fun u w => is_agg fi (map (worth dt) (snd u)) w) (concat users) ws /\
    report_per_user dt fi fo (map rows_of_users users) = Done (Some (Some v)) /\ is_agg fo ws v.
Proof.
  intros Nm Nd H Hb Havg R. destruct (plan_per_user_ok dt fi fo Nm) as (s & Hs & Edt & P & Ec & _).
  assert (Nk : is_number (kind dt fi) = true) by (destruct dt, fi; try discriminate Nm; reflexivity).
  set (W := fun u : Z * list Qc => user_worth dt s fi (snd u)).
  assert (Hin : forall us u, In us (busy users) -> In u us -> In u (concat users)).
  { intros us u Hus Hu. apply in_concat. exists us. split; [now apply busy_in in Hus|exact Hu]. }
  assert (F : Forall2 (fun u w => is_agg fi (map (worth dt) (snd u)) w) (concat users) (map W (concat users))).
  { apply forall2_map. intros u Hu. destruct (H u Hu) as (_ & H2 & H3). eapply user_agg; eauto. }
  pose proof (R _ F) as RW.
  destruct (cell_ok (kind dt fi) fo (pu_ot s) (map (map W) (busy users)) (map (map (fun u => outer s (user_raw s fi (snd u)))) (busy users)) Nk P) as (v & Hv & Av).
  - revert Hin. generalize (busy users). intros bs Hin. induction bs as [|us bs IH]; constructor; [|apply IH; intros us' u Hus; apply Hin; now right].
    rewrite !map_length. split; [reflexivity|]. intros Fo. rewrite map_map. apply map_ext_in. intros u Hu.
    pose proof (Hin us u (or_introl eq_refl) Hu) as Hc. destruct (H u Hc) as (H1 & H2 & H3). apply (user_outer dt fi fo); auto.
    intros ->. eapply Qcle_trans; [|exact RW]. apply abs_le_sum. apply (in_map W) in Hc. exact Hc.
  - intros w Hw. apply in_map_iff in Hw. destruct Hw as (us & <- & Hus). apply busy_in in Hus. now apply map_nil.
  - now apply map_nil.
  - now rewrite map_length.
  - intros w x Hw Hx. apply in_map_iff in Hw. destruct Hw as (us & <- & Hus). apply in_map_iff in Hx. destruct Hx as (u & <- & Hu).
    pose proof (Hin us u Hus Hu) as Hc. destruct (H u Hc) as (H1 & H2 & H3). apply (user_good dt fi (map (worth dt) (snd u))); auto.
    + intros y Hy. apply in_map_iff in Hy. destruct Hy as (y' & <- & Hy). apply good_worth; auto.
    + now apply map_nil.
    + eapply user_agg; eauto.
  - now rewrite <- concat_map, concat_busy.
  - exists (map W (concat users)), v. split; [exact F|]. rewrite <- concat_map, concat_busy in Av. split; [|exact Av].
    assert (Bm : busy (map rows_of_users users) = map rows_of_users (busy users)).
    { apply busy_map. intros us Hus. apply rows_nil. intros u Hu. apply H. apply in_concat. eauto. }
    unfold report_per_user. rewrite Hs. cbn [bind]. rewrite cell_some by (rewrite Bm; now apply map_nil). rewrite Bm, Edt, Ec, map_map, <- Hv, map_map.
    do 4 f_equal. apply map_ext_in. intros us Hus. apply per_user_worker_ok.
    + now apply busy_in in Hus.
    + eapply nodup_part; [exact Nd|]. now apply busy_in in Hus.
    + intros u Hu. apply H. eauto.
Qed.

(** ** Counted events *)
Lemma plan_counted_ok fo : exists s, plan_counted fo = Done s /\ pc_dt s = kind DInt64 fo /\ final_prim (kind DInt64 fo) = Some (pc_ot s) /\
  pc_comb s = pc_ot s /\ pc_mul s = factor DInt64 (kind DInt64 fo).
Proof. destruct fo; eexists; repeat (split; [reflexivity|]); reflexivity. Qed.
Lemma count_user (us : list unit) : forall n, qc_of_nat n + qlen us <= of_int (2 ^ 63 - 1) ->
  fold_left (fun n (_ : unit) => hold I64 (n + 1)) us (qc_of_nat n) = qc_of_nat n + qlen us.
Proof.
  induction us as [|x us IH]; intros n H; [cbn; unfold qlen; cbn [length]; rewrite qc_nat_0; ring|]. cbn [fold_left]. rewrite qlen_cons in *.
  rewrite <- qc_nat_S. rewrite hold_exact.
  - rewrite IH; rewrite qc_nat_S; [ring|]. replace (qc_of_nat n + 1 + qlen us) with (qc_of_nat n + (qlen us + 1)) by ring. exact H.
  - exists (Z.of_nat (S n)). split; [reflexivity|]. unfold qlen in H. rewrite <- qc_nat_S, <- qc_nat_add, <- of_int_nat in H. apply int_le in H. ints.
Qed.
Definition counted_outer (s : Counted) (n : Qc) : Qc := times (pc_ot s) (cast I64 (pc_ot s) n) (pc_mul s).
Lemma counted_ok fo (users : list (list (Z * list unit))) : NoDup (map fst (concat users)) ->
  (forall u, In u (concat users) -> snd u <> [] /\ qlen (snd u) <= of_int (2 ^ 63 - 1)) ->
  busy users <> [] -> (fo = Avg -> length (busy users) = 1%nat) ->
  room DInt64 fo (map (fun u => qlen (snd u)) (concat users)) ->
  exists v, report_counted fo (map rows_of_users users) = Done (Some (Some v)) /\ is_agg fo (map (fun u => qlen (snd u)) (concat users)) v.
Proof.
  intros Nd H Hb Havg R. destruct (plan_counted_ok fo) as (s & Hs & Edt & P & Ec & Em).
  set (W := fun u : Z * list unit => qlen (snd u)) in *.
  assert (Hin : forall us u, In us (busy users) -> In u us -> In u (concat users)).
  { intros us u Hus Hu. apply in_concat. exists us. split; [now apply busy_in in Hus|exact Hu]. }
  assert (GW : forall u, In u (concat users) -> storable DInt64 (W u)).
  { intros u Hu. exists (Z.of_nat (length (snd u))). split; [reflexivity|]. destruct (H u Hu) as [_ H2]. rewrite qlen_int in H2. apply int_le in H2. lia. }
  destruct (cell_ok DInt64 fo (pc_ot s) (map (map W) (busy users)) (map (map (fun u => counted_outer s (W u))) (busy users)) eq_refl P) as (v & Hv & Av).
  - revert Hin. generalize (busy users). intros bs Hin. induction bs as [|us bs IH]; constructor; [|apply IH; intros us' u Hus; apply Hin; now right].
    rewrite !map_length. split; [reflexivity|]. intros Fo. rewrite map_map. apply map_ext_in. intros u Hu.
    pose proof (Hin us u (or_introl eq_refl) Hu) as Hc. specialize (GW u Hc).
    assert (E : exact (pc_ot s) (W u * scale (kind DInt64 fo))).
    { apply (result_exact DInt64 fo); auto; [unfold good; cbn [scale]; now rewrite Qcmult_1_r|]. intros ->. eapply Qcle_trans; [|exact R]. apply abs_le_sum. now apply in_map. }
    unfold counted_outer, times. rewrite Em. pose proof (factor_scale DInt64 (kind DInt64 fo) (W u)) as FS. cbn [scale] in FS. rewrite Qcmult_1_r in FS. rewrite <- FS in E. rewrite <- FS.
    rewrite cast_exact; [now rewrite hold_exact| |left; discriminate].
    destruct (width (pc_ot s)) as [[sg b]|] eqn:Wd; [|unfold exact; now rewrite Wd].
    eapply (raw_exact DInt64); [reflexivity|exact GW|exact P| |].
    + cbn [worth]. rewrite <- FS. exact E.
    + destruct fo; auto. injection P as P. rewrite <- P in Wd. discriminate.
  - intros w Hw. apply in_map_iff in Hw. destruct Hw as (us & <- & Hus). apply busy_in in Hus. now apply map_nil.
  - now apply map_nil.
  - now rewrite map_length.
  - intros w x Hw Hx. apply in_map_iff in Hw. destruct Hw as (us & <- & Hus). apply in_map_iff in Hx. destruct Hx as (u & <- & Hu).
    unfold good. cbn [scale]. rewrite Qcmult_1_r. eauto.
  - now rewrite <- concat_map, concat_busy.
  - exists v. rewrite <- concat_map, concat_busy in Av. split; [|exact Av].
    assert (Bm : busy (map rows_of_users users) = map rows_of_users (busy users)).
    { apply busy_map. intros us Hus. apply rows_nil. intros u Hu. apply H. apply in_concat. eauto. }
    unfold report_counted. rewrite Hs. cbn [bind]. rewrite cell_some by (rewrite Bm; now apply map_nil). rewrite Bm, Edt, Ec, map_map, <- Hv, map_map.
    do 4 f_equal. apply map_ext_in. intros us Hus. unfold counted_worker, run_all. rewrite users_ok.
    + f_equal. rewrite !fold_map. assert (Hc : forall u, In u us -> In u (concat users)) by (intros; eauto). revert Hc. generalize (acc_new (pc_ot s) fo).
      clear - H. induction us as [|u us IH]; intros a Hc; [reflexivity|]. cbn [fold_left]. rewrite IH by (intros; apply Hc; now right). f_equal.
      assert (C : fold_left (fun n (_ : unit) => hold I64 (n + 1)) (snd u) 0 = qlen (snd u)).
      { rewrite <- qc_nat_0 at 1. rewrite count_user; rewrite qc_nat_0, Qcplus_0_l; [reflexivity|]. apply H. apply Hc. now left. }
      unfold counted_outer. now rewrite C.
    + now apply busy_in in Hus.
    + eapply nodup_part; [exact Nd|]. now apply busy_in in Hus.
    + intros u Hu. apply H. eauto.
Qed.

(** ** Sums beyond the room *)
Lemma wrap_add b a z : (0 < b)%Z -> wrap true b (wrap true b a + z) = wrap true b (a + z).
Proof.
  intros Hb. unfold wrap. f_equal. replace ((a + 2 ^ (b - 1)) mod 2 ^ b - 2 ^ (b - 1) + z + 2 ^ (b - 1))%Z with ((a + 2 ^ (b - 1)) mod 2 ^ b + z)%Z by ring.
  rewrite Zplus_mod_idemp_l. f_equal. ring.
Qed.
Lemma wrap_wrap a : wrap true 128 (wrap true 128 a) = wrap true 128 a.
Proof. rewrite <- (Z.add_0_r (wrap true 128 a)) at 1. rewrite wrap_add by reflexivity. now rewrite Z.add_0_r. Qed.
Lemma sum_wraps zs : forall a, fold_left (acc_in I128) (map of_int zs) (ASum (of_int (wrap true 128 a))) = ASum (of_int (wrap true 128 (a + fold_right Z.add 0%Z zs))).
Proof.
  induction zs as [|z zs IH]; intros a; cbn [map fold_left fold_right]; [now rewrite Z.add_0_r|].
  unfold acc_in at 2. cbn [accumulate hold_acc]. unfold hold. cbn [width]. rewrite <- of_int_add, trunc_int, wrap_add by reflexivity. rewrite IH. f_equal. f_equal. f_equal. ring.
Qed.
Lemma run_wraps zs : run_all I128 Sum (map of_int zs) = of_int (wrap true 128 (fold_right Z.add 0%Z zs)).
Proof. unfold run_all, acc_new. cbn [make_new]. replace 0 with (of_int (wrap true 128 0)) by reflexivity. rewrite sum_wraps. reflexivity. Qed.
Lemma sum_concat_wraps zss : (wrap true 128 (fold_right Z.add 0 (map (fun zs => wrap true 128 (fold_right Z.add 0 zs)) zss)) = wrap true 128 (fold_right Z.add 0 (concat zss)))%Z.
Proof.
  assert (H : forall a, (wrap true 128 (a + fold_right Z.add 0 (map (fun zs => wrap true 128 (fold_right Z.add 0 zs)) zss)) = wrap true 128 (a + fold_right Z.add 0 (concat zss)))%Z); [|exact (H 0%Z)].
  induction zss as [|zs zss IH]; intros a; [reflexivity|]. cbn [map fold_right concat].
  rewrite Z.add_assoc. rewrite IH. assert (E : fold_right Z.add 0%Z (zs ++ concat zss) = (fold_right Z.add 0 zs + fold_right Z.add 0 (concat zss))%Z).
  { clear. induction zs as [|z zs IH]; [reflexivity|]. cbn [app fold_right]. rewrite IH. ring. }
  rewrite E. rewrite (Z.add_comm a (wrap _ _ _)), <- !Z.add_assoc, wrap_add by reflexivity. f_equal. ring.
Qed.
Lemma sum_scaled k zs : fold_right Z.add 0%Z (map (fun z => z * k)%Z zs) = (fold_right Z.add 0 zs * k)%Z.
Proof. induction zs as [|z zs IH]; [reflexivity|]. cbn [map fold_right]. rewrite IH. ring. Qed.
Lemma int64_sum_wraps zss : (forall z, In z (concat zss) -> - 2 ^ 63 <= z <= 2 ^ 63 - 1)%Z -> busy zss <> [] ->
  report_property DInt64 Sum (map (map of_int) zss) =
    Done (Some (Some (of_int (wrap true 128 (fold_right Z.add 0%Z (concat zss) * 10 ^ 16)) / of_int (10 ^ 16)))).
Proof.
  intros H Hb. unfold report_property. destruct (plan_simple DInt64 Sum) as [s| |] eqn:Hs; try discriminate Hs. cbn [bind].
  assert (Eo : sp_ot s = I128) by (injection Hs as <-; reflexivity). assert (Ec : sp_comb s = I128) by (injection Hs as <-; reflexivity).
  assert (Ed : sp_dt s = DDec) by (injection Hs as <-; reflexivity).
  assert (Bm : busy (map (map of_int) zss) = map (map of_int) (busy zss)) by (apply busy_map; intros w _; destruct w; cbn; split; congruence).
  rewrite cell_some by (rewrite Bm; now apply map_nil). rewrite Bm, Ed, Ec, map_map. cbn [shown]. rewrite M16_int. do 4 f_equal.
  assert (Hin : forall zs z, In zs (busy zss) -> In z zs -> In z (concat zss)) by (intros zs z H1 H2; apply in_concat; exists zs; split; [now apply busy_in in H1|exact H2]).
  replace (map (fun x => simple_worker s Sum (map of_int x)) (busy zss)) with (map of_int (map (fun zs => wrap true 128 (fold_right Z.add 0%Z zs)) (map (map (fun z => (z * 10 ^ 16)%Z)) (busy zss)))).
  - unfold combined. cbn [combine_op]. fold (run_all I128 Sum (map of_int (map (fun zs => wrap true 128 (fold_right Z.add 0%Z zs)) (map (map (fun z => (z * 10 ^ 16)%Z)) (busy zss))))).
    rewrite run_wraps, sum_concat_wraps, <- concat_map, concat_busy, sum_scaled. reflexivity.
  - rewrite !map_map. apply map_ext_in. intros zs Hzs. unfold simple_worker. rewrite Eo. fold (run_all I128 Sum (map (convert s) (map of_int zs))).
    rewrite <- run_wraps, !map_map. f_equal. apply map_ext_in. intros z Hz. symmetry. specialize (H z (Hin zs z Hzs Hz)).
    rewrite (convert_ok DInt64 Sum s (of_int z) eq_refl Hs); [cbn [worth kind scale]; now rewrite M16_int, <- of_int_mul|discriminate|exists z; auto|].
    intros _. cbn [worth biggest]. apply big_ints. lia.
Qed.
