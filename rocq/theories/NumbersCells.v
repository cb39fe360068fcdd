(** Facts about the cells of reports: conversions between the machine types are exact. *)
From Coq Require Import List ZArith QArith Qcanon Qcabs Bool Lia.
From Verif Require Import Aggregate AggSpec AggFacts Numbers NumbersSpec NumbersFacts.
Import ListNotations.
Local Open Scope Qc_scope.
Local Opaque f32_max f64_max.

(** [w] is what a stored value of the column stands for *)
Definition good (dt : DT) (w : Qc) : Prop := storable dt (w * scale dt).
Lemma mul_le a b k : 0 < k -> a <= b -> a * k <= b * k.
Proof. intros K H. apply Qcmult_le_compat_r; [exact H|]. now apply Qclt_le_weak. Qed.
Lemma div_mul a k : k <> 0 -> a / k * k = a.
Proof. intros K. field. exact K. Qed.
Lemma abs_mul_pos a k : 0 < k -> Qcabs (a * k) = Qcabs a * k.
Proof. intros K. rewrite Qcabs_Qcmult. f_equal. apply Qcabs_pos. now apply Qclt_le_weak. Qed.
Lemma abs_bounds x y : Qcabs x <= y -> - y <= x /\ x <= y.
Proof. intros H. now apply Qcabs_Qcle_condition. Qed.

Definition fits_decimal (dt : DT) (x : Qc) : Prop :=
  match dt with DUInt64 => x <= of_int (2 ^ 63 - 1) | DFloat32 | DFloat64 => Qcabs x <= big_decimal | _ => True end.
Lemma shown_worth dt x : fits_decimal dt x -> shown dt x = Some (x / scale dt).
Proof.
  intros H. assert (E : x / 1 = x) by (field; discriminate).
  assert (F : Qcabs x <= big_decimal -> qlt (of_int (2 ^ 127 - 1)) (x * M16) || qlt (x * M16) (of_int (- 2 ^ 127)) = false).
  { intros B. apply abs_bounds in B. destruct B as [B1 B2]. apply (mul_le _ _ _ m16_pos) in B1, B2. unfold big_decimal in *. change (of_int (10 ^ 16)) with M16 in *.
    replace (- (of_int (2 ^ 127 - 1) / M16) * M16) with (- of_int (2 ^ 127 - 1)) in B1 by (field; exact m16_nz). rewrite div_mul in B2 by exact m16_nz.
    apply orb_false_intro; apply qlt_false; [exact B2|]. eapply Qcle_trans; [|exact B1]. rewrite <- of_int_opp. apply le_int. lia. }
  destruct dt; cbn [shown scale fits_decimal] in *; try reflexivity; rewrite ?E; try reflexivity.
  - now rewrite (proj2 (qlt_false _ _) H).
  - now rewrite (F H).
  - now rewrite (F H).
Qed.
Lemma big_floats : big_decimal <= of_int f32_max /\ big_decimal <= of_int f64_max.
Proof. Local Transparent f32_max f64_max. split; vm_compute; discriminate. Qed.
Local Opaque f32_max f64_max.

Ltac ints := unfold in_int, least_int, greatest_int, int_range in *; lia.
(** exactness of the converted value in the type of the results *)
Lemma result_exact dt f p w : is_number dt = true -> final_prim (kind dt f) = Some p -> f <> Cnt -> good dt w ->
  (f = Sum -> Qcabs w <= biggest dt) -> exact p (w * scale (kind dt f)).
Proof.
  unfold good, exact. intros N P F G B.
  destruct f; [specialize (B eq_refl); clear F| | | |congruence].
  4: { destruct dt; cbn in P; try discriminate; injection P as <-; exact Logic.I. }
  - destruct dt; cbn [kind final_prim] in P; try discriminate; injection P as <-; cbn [width scale kind biggest storable int_range] in *;
      try exact Logic.I.
    1-3,5-7: destruct G as (z & E & R); rewrite E; exists z; split; [reflexivity|];
      rewrite Qcmult_1_r in E; subst w; apply abs_range in B; ints.
    + destruct G as (z & E & R). rewrite Qcmult_1_r in E. subst w. exists (z * 10 ^ 16)%Z. split; [unfold M16; now rewrite of_int_mul|].
      ints.
    + destruct G as (z & E & R). rewrite Qcmult_1_r in E. subst w. exists (z * 10 ^ 16)%Z. split; [unfold M16; now rewrite of_int_mul|].
      ints.
    + destruct G as (z & E & R). exists z. split; [exact E|]. ints.
  - destruct dt; cbn [kind final_prim] in P; try discriminate; injection P as <-; cbn [width scale kind storable int_range] in *;
      try exact Logic.I; destruct G as (z & E & R); exists z; (split; [exact E|ints]).
  - destruct dt; cbn [kind final_prim] in P; try discriminate; injection P as <-; cbn [width scale kind storable int_range] in *;
      try exact Logic.I; destruct G as (z & E & R); exists z; (split; [exact E|ints]).
Qed.
Lemma result_bounds dt p w : final_prim dt = Some p -> good dt w -> least p <= w * scale dt /\ w * scale dt <= greatest p.
Proof.
  unfold good, least, greatest. intros P G.
  destruct dt; cbn [final_prim] in P; try discriminate; injection P as <-; cbn [width storable int_range float_max] in *;
    try (destruct G as (z & E & R); rewrite E; split; apply le_int; ints);
    rewrite of_int_opp; apply abs_bounds; (eapply Qcle_trans; [exact G|apply big_floats]).
Qed.
Lemma abs_scaled ws k : 0 < k -> qsum (map Qcabs (map (fun w => w * k) ws)) = qsum (map Qcabs ws) * k.
Proof. intros K. rewrite map_map, <- qsum_scale, map_map. f_equal. apply map_ext. intros w. now apply abs_mul_pos. Qed.
Lemma biggest_within dt p : is_number dt = true -> final_prim (kind dt Sum) = Some p -> within p (biggest dt * scale (kind dt Sum)).
Proof.
  intros N P. unfold within. destruct dt; cbn [kind final_prim] in P; try discriminate; injection P as <-; cbn [width scale kind biggest];
    try exact Logic.I.
  4,8,9: unfold M16, big_decimal; rewrite div_mul by exact m16_nz; apply le_int; ints.
  all: rewrite Qcmult_1_r; apply le_int; ints.
Qed.
Lemma runs_ok dt f p ws ls : is_number dt = true -> final_prim (kind dt f) = Some p ->
  (forall w, In w ws -> good dt w) -> room dt f ws ->
  length ls = length ws -> (f <> Cnt -> ls = map (fun w => w * scale (kind dt f)) ws) -> runs p f ls.
Proof.
  intros N P G R L E. destruct f; cbn [runs room] in *.
  - rewrite E by discriminate. split.
    + intros x Hx. apply in_map_iff in Hx. destruct Hx as (w & <- & Hw). apply result_exact; auto; [discriminate|].
      intros _. eapply Qcle_trans; [apply (abs_le_sum w ws); exact Hw|exact R].
    + eapply within_mono; [|apply biggest_within; eauto]. rewrite abs_scaled by apply scale_pos. apply mul_le; [apply scale_pos|exact R].
  - rewrite E by discriminate. intros x Hx. apply in_map_iff in Hx. destruct Hx as (w & <- & Hw). apply result_bounds; auto.
  - rewrite E by discriminate. intros x Hx. apply in_map_iff in Hx. destruct Hx as (w & <- & Hw). apply result_bounds; auto.
  - injection P as <-. reflexivity.
  - injection P as <-. unfold within, qlen in *. cbn [width]. now rewrite L.
Qed.
(** what is shown is not cut *)
Lemma abs_le_mul a k b : 0 < k -> Qcabs (a * k) <= b * k -> Qcabs a <= b.
Proof.
  intros K H. rewrite abs_mul_pos in H by exact K. destruct (Qclt_le_dec b (Qcabs a)) as [C|C]; [|exact C].
  exfalso. apply (Qcle_not_lt _ _ H). now apply Qcmult_lt_compat_r.
Qed.
Lemma big_ints z : (- 2 ^ 64 <= z <= 2 ^ 64)%Z -> Qcabs (of_int z) <= big_decimal.
Proof.
  intros H. apply (abs_le_mul _ _ _ m16_pos). unfold big_decimal, M16. rewrite div_mul by exact m16_nz. rewrite <- of_int_mul. apply abs_range. lia.
Qed.
(** every number stands below the largest decimal *)
Lemma good_decimal dt w : is_number dt = true -> good dt w -> Qcabs w <= big_decimal.
Proof.
  unfold good. intros Nm G.
  destruct dt; try discriminate Nm; cbn [storable int_range scale] in G; rewrite ?Qcmult_1_r in G.
  1-8: destruct G as (z & -> & R); apply big_ints; lia.
  - exact G.
  - exact G.
  - destruct G as (z & E & R). apply (abs_le_mul _ _ _ m16_pos). rewrite E. unfold big_decimal, M16. rewrite div_mul by exact m16_nz. apply abs_range. lia.
Qed.
Lemma avg_bound l v k : (forall x, In x l -> Qcabs x <= k) -> l <> [] -> v * qlen l = qsum l -> Qcabs v <= k.
Proof.
  intros H Hne E.
  assert (S : qsum (map Qcabs l) <= k * qlen l).
  { clear - H. induction l as [|x l IH]; [cbn [map qsum fold_right]; unfold qlen; cbn [length]; rewrite qc_nat_0, Qcmult_0_r; apply Qcle_refl|].
    cbn [map]. rewrite qsum_cons, qlen_cons. replace (k * (qlen l + 1)) with (k + k * qlen l) by ring.
    apply Qcplus_le_compat; [apply H; now left|apply IH; intros; apply H; now right]. }
  assert (P : 0 < qlen l).
  { pose proof (qlen_nonneg l) as Q. apply Qcle_lt_or_eq in Q. destruct Q as [Q|Q]; [exact Q|]. exfalso. apply (qlen_nonzero l); auto. }
  assert (B : Qcabs v * qlen l <= k * qlen l).
  { rewrite <- abs_mul_pos by exact P. rewrite E. eapply Qcle_trans; [apply abs_qsum|exact S]. }
  destruct (Qclt_le_dec k (Qcabs v)) as [C|C]; [|exact C]. exfalso. apply (Qcle_not_lt _ _ B). now apply Qcmult_lt_compat_r.
Qed.
Lemma cap dt f ws v : is_number dt = true -> (forall w, In w ws -> good dt w) -> room dt f ws -> ws <> [] -> f <> Cnt ->
  is_agg f ws v -> fits_decimal (kind dt f) (v * scale (kind dt f)).
Proof.
  intros N G R Hne F A.
  destruct f; cbn [kind room is_agg] in *; [| | | |congruence].
  - subst v. assert (B : Qcabs (qsum ws) <= biggest dt) by (eapply Qcle_trans; [apply abs_qsum|exact R]).
    destruct dt; try discriminate N; cbn [biggest fits_decimal scale] in *; try exact Logic.I; rewrite Qcmult_1_r; try exact B;
      (eapply Qcle_trans; [apply Qcle_Qcabs|exact B]).
  - destruct (A Hne) as [A1 _]. pose proof (good_decimal dt v N (G v A1)) as B. destruct dt; cbn [fits_decimal scale]; try exact Logic.I; rewrite Qcmult_1_r; try exact B.
    destruct (G v A1) as (z & E & Hz). cbn [scale] in E. rewrite Qcmult_1_r in E. subst v. apply le_int. lia.
  - destruct (A Hne) as [A1 _]. pose proof (good_decimal dt v N (G v A1)) as B. destruct dt; cbn [fits_decimal scale]; try exact Logic.I; rewrite Qcmult_1_r; try exact B.
    destruct (G v A1) as (z & E & Hz). cbn [scale] in E. rewrite Qcmult_1_r in E. subst v. apply le_int. lia.
  - cbn [fits_decimal scale]. rewrite Qcmult_1_r. eapply avg_bound; eauto. intros x Hx. eapply good_decimal; eauto.
Qed.
Lemma concat_nonempty {A} (ls : list (list A)) : ls <> [] -> (forall l, In l ls -> l <> []) -> concat ls <> [].
Proof.
  destruct ls as [|l ls]; [congruence|]. intros _ H. specialize (H l (or_introl eq_refl)). destruct l; [congruence|discriminate].
Qed.
Lemma concat_lengths {A B} (a : list (list A)) (b : list (list B)) :
  Forall2 (fun x y => length y = length x) a b -> length (concat b) = length (concat a).
Proof. induction 1 as [|x y a b H _ IH]; [reflexivity|]. cbn. now rewrite !app_length, H, IH. Qed.
Lemma cell_ok dt f p ws ls : is_number dt = true -> final_prim (kind dt f) = Some p ->
  Forall2 (fun w l => length l = length w /\ (f <> Cnt -> l = map (fun x => x * scale (kind dt f)) w)) ws ls ->
  (forall w, In w ws -> w <> []) -> ws <> [] -> (f = Avg -> length ws = 1%nat) ->
  (forall w x, In w ws -> In x w -> good dt x) -> room dt f (concat ws) ->
  exists v, shown (kind dt f) (combined p f (map (run_all p f) ls)) = Some v /\ is_agg f (concat ws) v.
Proof.
  intros N P F2 Hne Hws Havg G R.
  assert (L2 : Forall2 (fun x y : list Qc => length y = length x) ws ls) by (clear - F2; induction F2 as [|w l ws ls [H _] _ IH]; constructor; auto).
  pose proof (concat_lengths _ _ L2) as L.
  assert (E : f <> Cnt -> concat ls = map (fun x => x * scale (kind dt f)) (concat ws)).
  { intros Fc. rewrite concat_map. f_equal. clear - F2 Fc. induction F2 as [|w l ws ls [_ H] _ IH]; [reflexivity|]. cbn. now rewrite (H Fc), IH. }
  assert (RN : runs p f (concat ls)).
  { eapply runs_ok; eauto. intros w Hw. apply in_concat in Hw. destruct Hw as (l & H1 & H2). eauto. }
  assert (Hls : ls <> []) by (intros ->; inversion F2; congruence).
  assert (Hl : forall l, In l ls -> l <> []).
  { intros l Hl ->. clear - F2 Hl Hne. induction F2 as [|w l ws ls [H _] _ IH]; [destruct Hl|].
    destruct Hl as [-> |Hl]; [|apply IH; auto; intros; apply Hne; now right]. destruct w; [|discriminate]. now apply (Hne [] (or_introl eq_refl)). }
  assert (Hlen : f = Avg -> length ls = 1%nat) by (intros Ef; rewrite <- (Havg Ef); clear - F2; induction F2; cbn; auto).
  pose proof (combine_ok p f ls RN Hl Hls Hlen) as A. set (v := combined p f (map (run_all p f) ls)) in *.
  assert (Hc : concat ws <> []) by now apply concat_nonempty.
  exists (v / scale (kind dt f)).
  assert (D : f = Cnt \/ f <> Cnt) by (destruct f; auto; right; discriminate). destruct D as [Ef|Ef].
  - subst f. cbn [kind shown scale]. cbn [is_agg] in *. replace (v / 1) with v by (field; discriminate). split; [reflexivity|].
    rewrite A. unfold qlen. now rewrite L.
  - rewrite (E Ef) in A. apply is_agg_scale in A; auto using scale_pos. split; [|exact A]. apply shown_worth.
    rewrite <- (div_mul v (scale (kind dt f)) (scale_nz _)). eapply cap; eauto.
    intros w Hw. apply in_concat in Hw. destruct Hw as (l & H1 & H2). eauto.
Qed.

(** ** Values of one property *)
Lemma good_worth dt v : storable dt v -> good dt (worth dt v).
Proof. unfold good. now rewrite worth_scale. Qed.
Lemma conv_int t ot v m : width t <> None -> exact ot v -> exact ot (v * m) -> over ot (times ot (cast t ot v) m) 1 = v * m.
Proof. intros T E1 E2. rewrite cast_exact by auto. unfold times. rewrite hold_exact by exact E2. now apply over_one. Qed.
(** the multiplier between the units of two columns *)
Definition factor (a b : DT) : Qc := match a, b with DDec, DDec => 1 | DDec, _ => 1 / M16 | _, DDec => M16 | _, _ => 1 end.
Lemma factor_scale dt rt w : w * scale dt * factor dt rt = w * scale rt.
Proof. destruct dt, rt; cbn [scale factor]; try ring; field; exact m16_nz. Qed.
Local Opaque M16 of_int.
Lemma plan_simple_ok dt f : is_number dt = true -> exists s, plan_simple dt f = Done s /\ sp_dt s = kind dt f /\
  final_prim dt = Some (sp_t s) /\ final_prim (kind dt f) = Some (sp_ot s) /\ sp_comb s = sp_ot s /\
  (f <> Cnt -> if width (sp_ot s) then sp_mul s = factor dt (kind dt f) /\ sp_div s = 1 /\ width (sp_t s) <> None
               else forall x, x * sp_mul s / sp_div s = x * factor dt (kind dt f)).
Proof.
  intros Nm. destruct dt; try discriminate Nm; clear Nm; destruct f; (eexists; split; [reflexivity|]);
    repeat (split; [reflexivity|]); intros F; cbn [width sp_ot sp_mul sp_div sp_t factor kind]; try (now contradict F);
    try (split; [reflexivity|split; [reflexivity|discriminate]]);
    intros x; field; try exact m16_nz; try discriminate.
Qed.
Lemma raw_exact dt p v rt : is_number dt = true -> storable dt v -> final_prim rt = Some p -> exact p (worth dt v * scale rt) ->
  rt = dt \/ rt = kind dt Sum -> exact p v.
Proof.
  intros Nm G P E [-> | ->]; [now rewrite worth_scale in E|].
  destruct dt; cbn [kind final_prim] in P; try discriminate; injection P as <-; cbn [worth scale kind] in E; rewrite ?Qcmult_1_r in E;
    try exact E; try exact Logic.I; cbn [storable int_range] in G.
  1,2: destruct G as (z & -> & R); exists z; (split; [reflexivity|ints]).
  destruct G as (z & -> & R); exists z; (split; [reflexivity|ints]).
Qed.
Lemma convert_ok dt f s v : is_number dt = true -> plan_simple dt f = Done s -> f <> Cnt -> storable dt v ->
  (f = Sum -> Qcabs (worth dt v) <= biggest dt) -> convert s v = worth dt v * scale (kind dt f).
Proof.
  intros Nm Hs F G B. destruct (plan_simple_ok dt f Nm) as (s' & Hs' & _ & _ & P & _ & C). rewrite Hs in Hs'. injection Hs' as <-. specialize (C F).
  pose proof (result_exact dt f (sp_ot s) (worth dt v) Nm P F (good_worth dt v G) B) as E.
  rewrite <- (factor_scale dt), worth_scale. rewrite <- (factor_scale dt), worth_scale in E. unfold convert.
  destruct (width (sp_ot s)) as [[sg b]|] eqn:W.
  - destruct C as (Em & -> & Ht). rewrite Em. apply conv_int; auto.
    assert (D : kind dt f = dt \/ kind dt f = kind dt Sum) by (destruct f; auto; [injection P as P; rewrite <- P in W; discriminate|congruence]).
    eapply raw_exact; eauto. rewrite <- (factor_scale dt), worth_scale. exact E.
  - unfold over, times, cast, hold. rewrite W. apply C.
Qed.
Lemma busy_in {A} (ws : list (list A)) w : In w (busy ws) <-> In w ws /\ w <> [].
Proof. unfold busy. rewrite filter_In. destruct w; split; intros [H1 H2]; split; auto; congruence. Qed.
Lemma concat_busy {A} (ws : list (list A)) : concat (busy ws) = concat ws.
Proof. induction ws as [|[|x w] ws IH]; cbn; [reflexivity|exact IH|]. unfold busy in IH. now rewrite IH. Qed.
Lemma cell_some {A} (w : list A -> Qc) p f dt ws : busy ws <> [] -> cell w p f dt ws = Some (shown dt (combined p f (map w (busy ws)))).
Proof. intros H. unfold cell. fold (busy ws). destruct (busy ws); [congruence|reflexivity]. Qed.

Lemma property_ok dt f workers : is_number dt = true -> (forall v, In v (concat workers) -> storable dt v) ->
  busy workers <> [] -> (f = Avg -> length (busy workers) = 1%nat) -> room dt f (map (worth dt) (concat workers)) ->
  exists v, report_property dt f workers = Done (Some (Some v)) /\ is_agg f (map (worth dt) (concat workers)) v.
Proof.
  intros Nm G Hb Havg R. destruct (plan_simple_ok dt f Nm) as (s & Hs & Edt & _ & P & Ec & _).
  destruct (cell_ok dt f (sp_ot s) (map (map (worth dt)) (busy workers)) (map (map (convert s)) (busy workers)) Nm P) as (v & Hv & Av).
  - assert (Q : forall w, In w (busy workers) -> incl w (concat workers)) by (intros w Hw x Hx; apply in_concat; exists w; split; [now apply busy_in in Hw|exact Hx]).
    revert Q. generalize (busy workers). intros bs. induction bs as [|w bs IH]; intros Q; constructor; [|apply IH; intros; apply Q; now right].
    rewrite !map_length. split; [reflexivity|]. intros F. rewrite map_map. apply map_ext_in. intros x Hx.
    pose proof (Q w (or_introl eq_refl) x Hx) as Hc. apply (convert_ok dt f); auto.
    intros ->. eapply Qcle_trans; [|exact R]. apply abs_le_sum. now apply in_map.
  - intros w Hw. apply in_map_iff in Hw. destruct Hw as (w' & <- & Hw). apply busy_in in Hw. now apply map_nil.
  - now apply map_nil.
  - now rewrite map_length.
  - intros w x Hw Hx. apply in_map_iff in Hw. destruct Hw as (w' & <- & Hw). apply in_map_iff in Hx. destruct Hx as (x' & <- & Hx).
    apply good_worth, G, in_concat. exists w'. split; [now apply busy_in in Hw|exact Hx].
  - now rewrite <- concat_map, concat_busy.
  - exists v. rewrite <- concat_map, concat_busy in Av. split; [|exact Av]. unfold report_property. rewrite Hs. cbn [bind].
    rewrite (cell_some _ _ _ _ _ Hb), Edt, Ec. rewrite map_map in Hv. now rewrite <- Hv.
Qed.

(** ** Users *)
Section UsersFacts.
Context {V A O : Type}.
Variables (fresh : A) (add : A -> V -> A) (flush : O -> A -> O).
Lemma user_rows p vs : forall a o, fold_left (user_row fresh add flush) (map (pair p) vs) (mkUG a o false p) = mkUG (fold_left add vs a) o false p.
Proof. induction vs as [|v vs IH]; intros a o; [reflexivity|]. cbn [map fold_left]. unfold user_row at 2. cbn [ug_first ug_last ug_in ug_out fst snd]. rewrite Z.eqb_refl. apply IH. Qed.
Lemma row_other p q v a o : p <> q -> user_row fresh add flush (mkUG a o false p) (q, v) = mkUG (add fresh v) (flush o a) false q.
Proof. intros H. unfold user_row. cbn [ug_first ug_last ug_in ug_out fst snd]. now rewrite (proj2 (Z.eqb_neq p q) H). Qed.
Lemma row_first q v a o z : user_row fresh add flush (mkUG a o true z) (q, v) = mkUG (add a v) o false q.
Proof. unfold user_row. cbn [ug_first ug_last ug_in ug_out fst snd]. now rewrite Z.eqb_refl. Qed.
Lemma users_run us : forall p a o, ~ In p (map fst us) -> NoDup (map fst us) -> (forall u, In u us -> snd u <> []) ->
  let g := fold_left (user_row fresh add flush) (rows_of_users us) (mkUG a o false p) in
  flush (ug_out g) (ug_in g) = fold_left flush (map (fun u => fold_left add (snd u) fresh) us) (flush o a).
Proof.
  induction us as [|[q vs] us IH]; intros p a o Hp Hd Hne; [reflexivity|]. unfold rows_of_users. cbn [map concat fst snd]. rewrite fold_left_app.
  pose proof (Hne (q, vs) (or_introl eq_refl)) as Hv. cbn [snd] in Hv. destruct vs as [|v vs]; [congruence|]. cbn [map fold_left fst snd].
  cbn [map In fst] in Hp. rewrite row_other by (intros ->; apply Hp; now left).
  rewrite user_rows. inversion_clear Hd as [|? ? H1 H2]. refine (IH q _ _ H1 H2 _). intros u Hu. apply Hne. now right.
Qed.
Lemma users_ok us o : us <> [] -> NoDup (map fst us) -> (forall u, In u us -> snd u <> []) ->
  users_result fresh add flush o (rows_of_users us) = fold_left flush (map (fun u => fold_left add (snd u) fresh) us) o.
Proof.
  intros Hu Hd Hne. destruct us as [|[q vs] us]; [congruence|]. unfold users_result, rows_of_users. cbn [map concat fst snd]. rewrite fold_left_app.
  pose proof (Hne (q, vs) (or_introl eq_refl)) as Hv. cbn [snd] in Hv. destruct vs as [|v vs]; [congruence|]. cbn [map fold_left fst snd].
  rewrite row_first, user_rows. inversion_clear Hd as [|? ? H1 H2]. refine (users_run us q _ _ H1 H2 _). intros u Hin. apply Hne. now right.
Qed.
End UsersFacts.
Lemma fold_map {A B C} (g : A -> B) (f : C -> B -> C) l : forall c, fold_left f (map g l) c = fold_left (fun c a => f c (g a)) l c.
Proof. induction l as [|x l IH]; intros c; [reflexivity|]. cbn. apply IH. Qed.
