(** Properties C58, C59, C82 and C83: filters and events of queries. *)
From Coq Require Import List ZArith String Bool Lia.
From Verif Require Import Filter.
Import ListNotations.
Local Open Scope string_scope.

(** ** Specification *)
(** two values are the same, or in order; decimals as numbers *)
Definition same (a b : V) : Prop :=
  match a, b with
  | VDec m x, VDec n y => (m * 10 ^ Z.of_nat y = n * 10 ^ Z.of_nat x)%Z
  | _, _ => a = b
  end.
Definition before (a b : V) : Prop :=
  match a, b with
  | VInt x, VInt y => (x < y)%Z
  | VStr x, VStr y => String.compare x y = Lt
  | VBool x, VBool y => x = false /\ y = true
  | VDec m x, VDec n y => (m * 10 ^ Z.of_nat y < n * 10 ^ Z.of_nat x)%Z
  | _, _ => False
  end.
Definition same_kind (a b : V) : Prop :=
  match a, b with
  | VInt _, VInt _ | VStr _, VStr _ | VBool _, VBool _ | VDec _ _, VDec _ _ => True
  | _, _ => False
  end.
(** what the user sees as the row's value of the property: for dictionary properties the text *)
Definition shown (p : FProp) (row : string -> option V) : option V :=
  match p_dict p, row (p_col p) with
  | Some d, Some (VInt k) => option_map VStr (nth_error d (Z.to_nat (k - 1)))
  | _, v => v
  end.
(** a number given for a time *)
Definition given (p : FProp) (v : V) : V :=
  match p_time p, v with true, VDec m 0 => VInt m | _, _ => v end.

Section Meaning.
Variables like regex : string -> string -> bool.
(** the row meets the filter *)
Definition meets (f : Filter) (row : string -> option V) : Prop :=
  let x := shown (f_prop f) row in
  let vals := match f_vals f with Some vs => map (given (f_prop f)) vs | None => [] end in
  match f_op f with
  | FEq => exists a b, x = Some a /\ In b vals /\ same a b
  | FNeq => forall a b, x = Some a -> In b vals -> ~ same a b
  | FGt => exists a b, x = Some a /\ In b vals /\ before b a
  | FGte => exists a b, x = Some a /\ In b vals /\ (before b a \/ same a b)
  | FLt => exists a b, x = Some a /\ In b vals /\ before a b
  | FLte => exists a b, x = Some a /\ In b vals /\ (before a b \/ same a b)
  | FTrue => x = Some (VBool true)
  | FFalse => x = Some (VBool false)
  | FExists => x <> None
  | FEmpty => x = None
  | FLike => exists a b, x = Some (VStr a) /\ In (VStr b) vals /\ like a b = true
  | FNotLike => forall a b, x = Some (VStr a) -> In (VStr b) vals -> like a b = false
  | FRegex => exists a b, x = Some (VStr a) /\ In (VStr b) vals /\ regex a b = true
  | FNotRegex => forall a b, x = Some (VStr a) -> In (VStr b) vals -> regex a b = false
  end.
End Meaning.

Definition needs_values (o : FOp) : bool := match o with FTrue | FFalse | FExists | FEmpty => false | _ => true end.
Definition negative (o : FOp) : bool := match o with FNeq | FNotLike | FNotRegex => true | _ => false end.
Definition ordering (o : FOp) : bool := match o with FGt | FGte | FLt | FLte => true | _ => false end.

(** What the API accepts: values of the property's kind, at least one where one is needed. *)
Definition well_typed (f : Filter) (row : string -> option V) : Prop :=
  match f_vals f with
  | None => needs_values (f_op f) = false
  | Some vs =>
    (needs_values (f_op f) = true <-> vs <> []) /\
    (match p_dict (f_prop f) with
     | Some _ => p_time (f_prop f) = false /\ forall v, In v vs -> exists s, v = VStr s
     | None =>
       (forall v, In v vs -> p_time (f_prop f) = true -> exists m, v = VDec m 0) /\
       (forall v x, In v vs -> row (p_col (f_prop f)) = Some x -> same_kind x (given (f_prop f) v)) /\
       (is_pattern (f_op f) = true -> forall v, In v vs -> exists s, v = VStr s)
     end)
  end.
(** Rows hold keys of the dictionary, which has every text once. *)
Definition good_row (p : FProp) (row : string -> option V) : Prop :=
  match p_dict p with
  | Some d => NoDup d /\ forall x, row (p_col p) = Some x -> exists k, x = VInt k /\ (1 <= k <= Z.of_nat (List.length d))%Z
  | None => True
  end.
Definition known (d : list string) (f : Filter) : Prop :=
  forall vs s, f_vals f = Some vs -> In (VStr s) vs -> In s d.

(** ** Facts *)
Lemma bool_cmp_eq a b : bool_cmp a b = Eq <-> a = b.
Proof. destruct a, b; cbn; intuition congruence. Qed.
Lemma bool_cmp_lt a b : bool_cmp a b = Lt <-> a = false /\ b = true.
Proof. destruct a, b; cbn; intuition congruence. Qed.
Lemma str_cmp_eq a b : String.compare a b = Eq <-> a = b.
Proof.
  split; [apply String.compare_eq_iff|]. intros ->. induction b as [|c b IH]; [reflexivity|]. cbn.
  rewrite IH. unfold Ascii.compare. now rewrite N.compare_refl.
Qed.
Lemma same_kind_cmp a b : same_kind a b ->
  exists c, vcmp a b = Some c /\ (c = Eq <-> same a b) /\ (c = Lt <-> before a b) /\ (c = Gt <-> before b a).
Proof.
  destruct a as [x|x|x|m x], b as [y|y|y|n y]; cbn; intros H; try contradiction.
  - exists (Z.compare x y). split; [reflexivity|]. rewrite Z.compare_eq_iff, Z.compare_lt_iff, Z.compare_gt_iff. split; [|tauto].
    split; [now intros ->|now intros [= ->]].
  - exists (String.compare x y). split; [reflexivity|]. rewrite str_cmp_eq. split; [split; [now intros ->|now intros [= ->]]|].
    split; [reflexivity|]. rewrite (String.compare_antisym x y). destruct (String.compare y x); cbn; intuition congruence.
  - exists (bool_cmp x y). split; [reflexivity|]. rewrite bool_cmp_eq, bool_cmp_lt. destruct x, y; cbn; intuition congruence.
  - exists (dec_cmp m x n y). split; [reflexivity|]. unfold dec_cmp. rewrite Z.compare_eq_iff, Z.compare_lt_iff, Z.compare_gt_iff. tauto.
Qed.

Section Proofs.
Variables like regex : string -> string -> bool.
Let ev := eval like regex.
Lemma keeps_true e row : keeps like regex e row = true <-> ev e row = Some true.
Proof. unfold keeps, ev. destruct (eval like regex e row) as [[]|]; intuition congruence. Qed.
Lemma or3_true a b : or3 a b = Some true <-> a = Some true \/ b = Some true.
Proof. destruct a as [[]|], b as [[]|]; cbn; intuition congruence. Qed.
Lemma and3_true a b : and3 a b = Some true <-> a = Some true /\ b = Some true.
Proof. destruct a as [[]|], b as [[]|]; cbn; intuition congruence. Qed.
Lemma multi_or_true es e row : multi_or es = Some e -> (ev e row = Some true <-> exists x, In x es /\ ev x row = Some true).
Proof.
  destruct es as [|x es]; [discriminate|]. intros [= <-]. revert x. induction es as [|y es IH]; intros x; cbn [fold_left].
  - split; [intros H; exists x; split; [now left|exact H]|intros (z & [<-|[]] & H); exact H].
  - rewrite IH. split.
    + intros (z & [<-|Hz] & H); [|exists z; split; [right; now right|exact H]].
      unfold ev in H. cbn [eval] in H. apply or3_true in H as [H|H]; [exists x|exists y]; (split; [cbn; tauto|exact H]).
    + intros (z & [<-|[<-|Hz]] & H).
      * exists (EOr x y). split; [now left|]. unfold ev. cbn [eval]. apply or3_true. now left.
      * exists (EOr x y). split; [now left|]. unfold ev. cbn [eval]. apply or3_true. now right.
      * exists z. split; [now right|exact H].
Qed.
Lemma multi_and_true es e row : multi_and es = Some e -> (ev e row = Some true <-> forall x, In x es -> ev x row = Some true).
Proof.
  destruct es as [|x es]; [discriminate|]. intros [= <-]. revert x. induction es as [|y es IH]; intros x; cbn [fold_left].
  - split; [intros H z [<-|[]]; exact H|intros H; apply H; now left].
  - rewrite IH. split.
    + intros H. pose proof (H (EAnd x y) (or_introl eq_refl)) as H0. unfold ev in H0. cbn [eval] in H0. apply and3_true in H0 as [H1 H2].
      intros z [<-|[<-|Hz]]; [exact H1|exact H2|]. apply H. now right.
    + intros H z [<-|Hz]; [|apply H; right; now right]. unfold ev. cbn [eval]. apply and3_true. split; apply H; cbn; tauto.
Qed.

Lemma key_of_nth d s n k : key_of d s n = Some k ->
  (n <= k < n + Z.of_nat (List.length d))%Z /\ nth_error d (Z.to_nat (k - n)) = Some s.
Proof.
  revert n. induction d as [|x d IH]; intros n; cbn [key_of]; [discriminate|]. destruct (String.eqb x s) eqn:E.
  - apply String.eqb_eq in E. intros [= <-]. cbn [List.length]. replace (Z.to_nat (n - n)) with 0%nat by lia. subst x. split; [lia|reflexivity].
  - intros H. apply IH in H as [H1 H2]. cbn [List.length]. split; [lia|].
    replace (Z.to_nat (k - n)) with (S (Z.to_nat (k - (n + 1)))) by lia. exact H2.
Qed.
Lemma key_of_some d s n : In s d -> exists k, key_of d s n = Some k.
Proof.
  revert n. induction d as [|x d IH]; intros n; [intros []|]. cbn [key_of]. destruct (String.eqb x s) eqn:E; [eauto|].
  intros [H|H]; [subst x; rewrite String.eqb_refl in E; discriminate|]. now apply IH.
Qed.
Lemma key_of_none d s n : ~ In s d -> key_of d s n = None.
Proof.
  revert n. induction d as [|x d IH]; intros n H; [reflexivity|]. cbn [key_of]. destruct (String.eqb x s) eqn:E.
  - apply String.eqb_eq in E. exfalso. apply H. now left.
  - apply IH. intros X. apply H. now right.
Qed.

(** the expression of a filter with values, on a view of the row whose column holds [x] *)
Lemma named_values col o vs row e :
  needs_values o = true -> named_property_expression col o (Some vs) = Some e ->
  (ev e row = Some true <-> exists x v, row col = Some x /\ In v vs /\ eval_cmp like regex o x v = Some true).
Proof.
  intros Hn H. assert (M : multi_or (map (ECmp o col) vs) = Some e) by (destruct o; first [exact H | discriminate]).
  rewrite (multi_or_true _ _ row M). split.
  - intros (z & Hz & Ht). apply in_map_iff in Hz as (v & <- & Hv). unfold ev in Ht. cbn [eval] in Ht.
    destruct (row col) as [x|]; [|discriminate]. exists x, v. auto.
  - intros (x & v & Hx & Hv & Ht). exists (ECmp o col v). split; [now apply in_map|]. unfold ev. cbn [eval]. now rewrite Hx.
Qed.
Lemma named_novalues col o vals row e :
  needs_values o = false -> named_property_expression col o vals = Some e ->
  (ev e row = Some true <->
   match o with
   | FTrue => row col = Some (VBool true) | FFalse => row col = Some (VBool false)
   | FExists => row col <> None | _ => row col = None
   end).
Proof.
  intros Hn H. destruct o; try discriminate; injection H as <-; unfold ev; cbn [eval]; destruct (row col) as [[z|s|[]|m sc]|]; split; intros X; try reflexivity; try congruence; try (injection X as X; discriminate X).
Qed.
Lemma named_some col o vs : vs <> [] -> exists e, named_property_expression col o (Some vs) = Some e.
Proof. intros H. destruct vs as [|v vs]; [congruence|]. destruct o; cbn; eauto. Qed.

(** the values a filter compares with after fix_filter *)
Definition fixed_vals (f : Filter) : list V := match f_vals (fix_filter f) with Some vs => vs | None => [] end.
Lemma fixed_vals_given f row vs : well_typed f row -> f_vals f = Some vs ->
  forall v, In v (fixed_vals f) <-> In v (map (given (f_prop f)) vs).
Proof.
  intros W E v. unfold fixed_vals, fix_filter. cbn [f_vals]. unfold well_typed in W. rewrite E in *. destruct W as [_ W].
  destruct (p_time (f_prop f)) eqn:T.
  - destruct (p_dict (f_prop f)) as [d|]; [destruct W; congruence|]. destruct W as [W _].
    rewrite in_flat_map, in_map_iff. split.
    + intros (x & Hx & Hv). destruct (W x Hx eq_refl) as (m & ->). apply in_map_iff in Hv as (y & <- & Hy).
      exists y. split; [|exact Hy]. destruct (W y Hy eq_refl) as (n & ->). unfold given. now rewrite T.
    + intros (x & <- & Hx). exists x. split; [exact Hx|]. destruct (W x Hx eq_refl) as (m & ->). apply in_map_iff. exists (VDec m 0).
      split; [unfold given; now rewrite T|exact Hx].
  - rewrite in_flat_map, in_map_iff. split.
    + intros (x & Hx & Hv). exists x. split; [|exact Hx]. unfold given. rewrite T. destruct x; destruct Hv as [->|[]]; reflexivity.
    + intros (x & <- & Hx). exists x. split; [exact Hx|]. unfold given. rewrite T. destruct x; now left.
Qed.
Lemma fixed_vals_single f row v : well_typed f row -> f_vals f = Some [v] -> fixed_vals f = [given (f_prop f) v].
Proof.
  intros W E. unfold fixed_vals, fix_filter. cbn [f_vals]. unfold well_typed in W. rewrite E in *. destruct W as [_ W]. cbn.
  destruct (p_time (f_prop f)) eqn:T.
  - destruct (p_dict (f_prop f)) as [d|]; [destruct W; congruence|]. destruct W as [W _].
    destruct (W v (or_introl eq_refl) eq_refl) as (m & ->). unfold given. rewrite T. reflexivity.
  - unfold given. rewrite T. destruct v; reflexivity.
Qed.
Lemma fixed_prop f : f_prop (fix_filter f) = f_prop f. Proof. reflexivity. Qed.
Lemma fixed_op f : f_op (fix_filter f) = f_op f. Proof. reflexivity. Qed.
Lemma fixed_some f : f_vals (fix_filter f) = Some (fixed_vals f). Proof. reflexivity. Qed.

(** comparisons on values of one kind *)
Lemma eval_cmp_kind o x v : same_kind x v ->
  match o with
  | FEq => eval_cmp like regex o x v = Some true <-> same x v
  | FNeq => eval_cmp like regex o x v = Some true <-> ~ same x v
  | FGt => eval_cmp like regex o x v = Some true <-> before v x
  | FGte => eval_cmp like regex o x v = Some true <-> before v x \/ same x v
  | FLt => eval_cmp like regex o x v = Some true <-> before x v
  | FLte => eval_cmp like regex o x v = Some true <-> before x v \/ same x v
  | _ => True
  end.
Proof.
  intros K. destruct (same_kind_cmp x v K) as (c & E & H1 & H2 & H3).
  destruct o; try exact I; cbn [eval_cmp]; rewrite E; cbn [option_map]; rewrite <- ?H1, <- ?H2, <- ?H3; destruct c; cbn; intuition congruence.
Qed.
Lemma encode_spec d vs : (forall v, In v vs -> exists s, v = VStr s /\ In s d) ->
  exists ks, encode d vs = Some ks /\ List.length ks = List.length vs /\
    forall k, In k ks <-> exists s n, In (VStr s) vs /\ key_of d s 1 = Some n /\ k = VInt n.
Proof.
  induction vs as [|v vs IH]; intros H; [exists []; split; [reflexivity|]; split; [reflexivity|]; intros k; split; [intros []|intros (s & n & [] & _)]|].
  destruct (H v (or_introl eq_refl)) as (s & -> & Hs). destruct (key_of_some d s 1 Hs) as (n & Hn).
  destruct IH as (ks & E & L & K); [intros x Hx; apply H; now right|].
  exists (VInt n :: ks). cbn [encode]. rewrite Hn, E. split; [reflexivity|]. split; [cbn; now rewrite L|].
  intros k. cbn [In]. rewrite K. split.
  - intros [<-|(s' & n' & H1 & H2 & H3)]; [exists s, n; auto|exists s', n'; auto].
  - intros (s' & n' & [[= <-]|H1] & H2 & H3); [left; congruence|right; exists s', n'; auto].
Qed.

Lemma shown_dict p d row k : p_dict p = Some d -> row (p_col p) = Some (VInt k) -> good_row p row ->
  exists s, shown p row = Some (VStr s) /\ decode_value d (VInt k) = VStr s /\ nth_error d (Z.to_nat (k - 1)) = Some s.
Proof.
  intros D E G. unfold good_row in G. rewrite D in G. destruct G as [ND G]. destruct (G _ E) as (k' & [= <-] & Hk).
  destruct (nth_error d (Z.to_nat (k - 1))) as [s|] eqn:Hn; [|apply nth_error_None in Hn; lia].
  exists s. unfold shown. rewrite D, E, Hn. split; [reflexivity|]. split; [|reflexivity]. cbn [decode_value]. f_equal. now apply nth_error_nth.
Qed.
Lemma shown_plain p row : p_dict p = None -> shown p row = row (p_col p).
Proof. intros D. unfold shown. now rewrite D. Qed.
Lemma key_same d s k n : NoDup d -> key_of d s 1 = Some n -> nth_error d (Z.to_nat (k - 1)) = Some s -> (1 <= k)%Z -> k = n.
Proof.
  intros ND H1 H2 Hk. apply key_of_nth in H1 as [B H1]. assert (Z.to_nat (k - 1) = Z.to_nat (n - 1)); [|lia].
  apply (proj1 (NoDup_nth_error d) ND); [|congruence]. apply nth_error_Some. congruence.
Qed.

(** what the expression of a filter sees in its column *)
Definition sees (f : Filter) (row view : string -> option V) : Prop :=
  let c := p_col (f_prop f) in
  match p_dict (f_prop f) with
  | None => view c = row c
  | Some d =>
    if needs_values (f_op f)
    then if is_pattern (f_op f) then view c = option_map (decode_value d) (row c) else view c = row c
    else view c = row c \/ view c = option_map (decode_value d) (row c)
  end.
(** filters the code treats as meant *)
Definition simple (f : Filter) (row : string -> option V) : Prop :=
  (p_dict (f_prop f) <> None -> ordering (f_op f) = false) /\
  (forall d, p_dict (f_prop f) = Some d -> is_pattern (f_op f) = false -> known d f) /\
  (negative (f_op f) = true -> (exists v, f_vals f = Some [v]) /\ row (p_col (f_prop f)) <> None).

Lemma pattern_cmp o x v : is_pattern o = true ->
  (eval_cmp like regex o x v = Some true <->
   exists a b, x = VStr a /\ v = VStr b /\
     match o with FLike => like a b = true | FNotLike => like a b = false | FRegex => regex a b = true | _ => regex a b = false end).
Proof.
  intros P. destruct o; try discriminate; cbn [eval_cmp]; split;
    try (intros (a & b & -> & -> & H); rewrite H; reflexivity);
    destruct x, v; intros H; try discriminate; injection H as H; rewrite ?negb_true_iff in H; eauto.
Qed.

Lemma filter_meets f row view :
  well_typed f row -> good_row (f_prop f) row -> simple f row -> sees f row view ->
  exists e, prop_expression (fix_filter f) = Some e /\ (ev e view = Some true <-> meets like regex f row).
Proof.
  intros W G (O & K & N) Vw. destruct f as [p o vals]. cbn [f_prop f_op f_vals] in *. set (c := p_col p) in *.
  unfold sees in Vw. cbn [f_prop f_op f_vals] in Vw. fold c in Vw.
  destruct (needs_values o) eqn:NV.
  2:{ (* operations without values *)
      assert (FV : fixed_vals (mkFilter p o vals) = []).
      { unfold well_typed in W. cbn [f_prop f_op f_vals] in W. destruct vals as [vs|]; [|reflexivity].
        destruct W as [W _]. destruct vs as [|v vs]; [reflexivity|]. exfalso. rewrite NV in W. assert (false = true); [|discriminate]. apply W. discriminate. }
      assert (Nm : exists e, named_property_expression c o (Some []) = Some e) by (destruct o; try discriminate; cbn; eauto).
      destruct Nm as (e & He). exists e. split.
      { unfold prop_expression. rewrite fixed_prop, fixed_op, fixed_some, FV. cbn [f_prop f_op]. fold c.
        destruct o; try discriminate; destruct (p_dict p); exact He. }
      rewrite (named_novalues c o (Some []) view e NV He). unfold meets. cbn [f_prop f_op f_vals].
      destruct (p_dict p) as [d|] eqn:D.
      - destruct (row c) as [x|] eqn:Hr.
        + assert (Kx : exists k, x = VInt k). { unfold good_row in G. rewrite D in G. destruct G as [_ G]. destruct (G x Hr) as (k & -> & _). eauto. }
          destruct Kx as (k & ->). destruct (shown_dict p d row k D Hr G) as (s & Hs & Hd & _). rewrite Hs.
          destruct Vw as [Vw|Vw]; rewrite Vw; [|cbn [option_map]; rewrite Hd]; destruct o; try discriminate NV; split; intros X; congruence.
        + assert (Hs : shown p row = None) by (unfold shown; fold c; now rewrite D, Hr). rewrite Hs.
          destruct Vw as [Vw|Vw]; rewrite Vw; destruct o; try discriminate NV; cbn [option_map]; split; intros X; congruence.
      - rewrite shown_plain by exact D. fold c. rewrite Vw. destruct o; try discriminate NV; split; intros X; exact X. }
  (* operations with values *)
  assert (Hv : exists vs, vals = Some vs /\ vs <> []).
  { unfold well_typed in W. cbn [f_prop f_op f_vals] in W. destruct vals as [vs|]; [|congruence]. exists vs. split; [reflexivity|]. now apply W. }
  destruct Hv as (vs & -> & Hne). set (f := mkFilter p o (Some vs)) in *.
  assert (FV : forall v, In v (fixed_vals f) <-> In v (map (given p) vs)) by (apply (fixed_vals_given f row vs W eq_refl)).
  assert (FN : fixed_vals f <> []).
  { destruct vs as [|v vs]; [congruence|]. intros X. assert (In (given p v) (fixed_vals f)) by (apply FV; now left). rewrite X in H. destruct H. }
  assert (F1 : forall v, vs = [v] -> fixed_vals f = [given p v]).
  { intros v ->. exact (fixed_vals_single f row v W eq_refl). }
  unfold meets. change (f_op f) with o. change (f_prop f) with p. change (f_vals f) with (Some vs). cbv beta iota.
  destruct (p_dict p) as [d|] eqn:D.
  - (* dictionary property *)
    assert (WT : p_time p = false /\ forall v, In v vs -> exists s, v = VStr s).
    { unfold well_typed in W. cbn [f_prop f_op f_vals f] in W. rewrite D in W. apply W. }
    destruct WT as [WT WS].
    assert (GV : map (given p) vs = vs).
    { rewrite <- (map_id vs) at 2. apply map_ext. intros v. unfold given. now rewrite WT. }
    rewrite GV in *.
    assert (FVS : forall v, In v (fixed_vals f) -> exists s, v = VStr s) by (intros v X; apply WS; now apply FV).
    assert (ND : NoDup d) by (unfold good_row in G; rewrite D in G; apply G).
    destruct (is_pattern o) eqn:P.
    + destruct (named_some c o (fixed_vals f) FN) as (e & He). exists e. split.
      { unfold prop_expression. rewrite fixed_prop, fixed_op, fixed_some. change (f_op f) with o. change (f_prop f) with p. fold c.
        destruct o; try discriminate P; exact He. }
      rewrite (named_values c o (fixed_vals f) view e NV He), Vw.
      assert (Sh : shown p row = option_map (decode_value d) (row c)).
      { destruct (row c) as [x|] eqn:Hr; [|unfold shown; fold c; now rewrite D, Hr].
        assert (Kx : exists k, x = VInt k). { unfold good_row in G. rewrite D in G. destruct G as [_ G]. destruct (G x Hr) as (k & -> & _). eauto. }
        destruct Kx as (k & ->). destruct (shown_dict p d row k D Hr G) as (s & Hs & Hd & _). rewrite Hs. cbn [option_map]. now rewrite Hd. }
      rewrite <- Sh.
      assert (PC : (exists x v, shown p row = Some x /\ In v (fixed_vals f) /\ eval_cmp like regex o x v = Some true) <->
                   exists a b, shown p row = Some (VStr a) /\ In (VStr b) vs /\
                     match o with FLike => like a b = true | FNotLike => like a b = false | FRegex => regex a b = true | _ => regex a b = false end).
      { split.
        - intros (x & v & H1 & H2 & H3). apply (pattern_cmp o x v P) in H3 as (a & b & -> & -> & H3). exists a, b. split; [exact H1|]. split; [now apply FV|exact H3].
        - intros (a & b & H1 & H2 & H3). exists (VStr a), (VStr b). split; [exact H1|]. split; [now apply FV|]. apply pattern_cmp; [exact P|]. eauto. }
      rewrite PC. destruct o; try discriminate P; try reflexivity.
      all: destruct (N eq_refl) as [(v0 & [= Ev]) Hr]; subst vs; destruct (WS v0 (or_introl eq_refl)) as (b0 & ->);
        assert (Ha : exists a, shown p row = Some (VStr a)) by
          (destruct (row c) as [x|] eqn:Hr2; [|congruence]; unfold good_row in G; rewrite D in G; pose proof G as G'; destruct G as [_ G];
           destruct (G x Hr2) as (k & -> & _); destruct (shown_dict p d row k D Hr2) as (s & Hs & _); [unfold good_row; now rewrite D|eauto]);
        destruct Ha as (a & Ha); split;
        [intros (a' & b & H1 & [H2|[]] & H3) a2 b2 H4 [H5|[]]; congruence
        |intros H; exists a, b0; split; [exact Ha|split; [now left|apply H; [exact Ha|now left]]]].
    + assert (KD : forall v, In v (fixed_vals f) -> exists s, v = VStr s /\ In s d).
      { intros v X. destruct (FVS v X) as (s & ->). exists s. split; [reflexivity|]. apply (K d eq_refl eq_refl vs s eq_refl). now apply FV. }
      destruct (encode_spec d (fixed_vals f) KD) as (ks & Ek & Lk & Hk).
      assert (KN : ks <> []) by (intros ->; destruct (fixed_vals f); [congruence|discriminate]).
      destruct (named_some c o ks KN) as (e & He). exists e. split.
      { unfold prop_expression. rewrite fixed_prop, fixed_op, fixed_some. change (f_op f) with o. change (f_prop f) with p. fold c. rewrite D, Ek.
        destruct o; try discriminate P; exact He. }
      rewrite (named_values c o ks view e NV He), Vw.
      assert (OO : ordering o = false) by (apply O; discriminate).
      destruct o; try discriminate.
      * (* Eq *) split.
        -- intros (x & v & Hx & Hin & Ht). apply Hk in Hin as (s & n & Hs & Hn & ->).
           assert (Kx : exists k, x = VInt k /\ (1 <= k)%Z). { unfold good_row in G. rewrite D in G. destruct G as [_ G]. destruct (G x Hx) as (k & -> & Hkk). exists k. split; [reflexivity|lia]. }
           destruct Kx as (k & -> & Hk1). destruct (shown_dict p d row k D Hx G) as (s' & Hs' & _ & Hn').
           pose proof (eval_cmp_kind FEq (VInt k) (VInt n) I) as EK. cbn beta iota in EK. apply EK in Ht. cbn in Ht. injection Ht as ->.
           apply key_of_nth in Hn as [_ Hn]. assert (s' = s) by congruence. subst s'.
           exists (VStr s), (VStr s). split; [exact Hs'|]. split; [now apply FV|reflexivity].
        -- intros (a & b & Ha & Hb & Hs). destruct (row c) as [x|] eqn:Hr; [|unfold shown in Ha; fold c in Ha; rewrite D, Hr in Ha; discriminate].
           assert (Kx : exists k, x = VInt k /\ (1 <= k)%Z). { unfold good_row in G. rewrite D in G. destruct G as [_ G]. destruct (G x Hr) as (k & -> & Hkk). exists k. split; [reflexivity|lia]. }
           destruct Kx as (k & -> & Hk1). destruct (shown_dict p d row k D Hr G) as (s' & Hs' & _ & Hn').
           rewrite Hs' in Ha. injection Ha as <-. destruct (WS b Hb) as (s & ->). cbn in Hs. injection Hs as <-.
           destruct (KD (VStr s') (proj2 (FV _) Hb)) as (s2 & [= <-] & Hd). destruct (key_of_some d s' 1 Hd) as (n & Hn).
           pose proof (key_same d s' k n ND Hn Hn' Hk1). subst n.
           exists (VInt k), (VInt k). split; [reflexivity|]. split; [apply Hk; exists s', k; split; [now apply FV|auto]|].
           pose proof (eval_cmp_kind FEq (VInt k) (VInt k) I) as EK. cbn beta iota in EK. now apply EK.
      * (* Neq *) destruct (N eq_refl) as [(v0 & [= Ev]) Hr]. subst vs. destruct (row c) as [x|] eqn:Hr2; [|congruence].
        assert (Kx : exists k, x = VInt k /\ (1 <= k)%Z). { unfold good_row in G. rewrite D in G. destruct G as [_ G]. destruct (G x Hr2) as (k & -> & Hkk). exists k. split; [reflexivity|lia]. }
        destruct Kx as (k & -> & Hk1). destruct (shown_dict p d row k D Hr2 G) as (s' & Hs' & _ & Hn').
        destruct (WS v0 (or_introl eq_refl)) as (s0 & ->).
        split.
        -- intros (x & v & [= <-] & Hin & Ht) a b Ha [<-|[]]. apply Hk in Hin as (s & n & Hs & Hn & ->). apply FV in Hs as [[= <-]|[]].
           pose proof (eval_cmp_kind FNeq (VInt k) (VInt n) I) as EK. cbn beta iota in EK. apply EK in Ht.
           rewrite Hs' in Ha. injection Ha as <-. cbn. intros [= ->]. apply Ht. cbn. f_equal. now apply (key_same d s0 k n).
        -- intros H. specialize (H _ (VStr s0) Hs' (or_introl eq_refl)).
           destruct (KD (VStr s0)) as (s2 & [= <-] & Hd); [apply FV; now left|]. destruct (key_of_some d s0 1 Hd) as (n & Hn).
           exists (VInt k), (VInt n). split; [reflexivity|]. split; [apply Hk; exists s0, n; split; [apply FV; now left|auto]|].
           pose proof (eval_cmp_kind FNeq (VInt k) (VInt n) I) as EK. cbn beta iota in EK. apply EK. cbn. intros [= ->].
           apply H. cbn. f_equal. apply key_of_nth in Hn as [_ Hn]. congruence.
  - (* plain property *)
    assert (WT : (forall v x, In v vs -> row c = Some x -> same_kind x (given p v)) /\ (is_pattern o = true -> forall v, In v vs -> exists s, v = VStr s)).
    { unfold well_typed in W. cbn [f_prop f_op f_vals f] in W. rewrite D in W. destruct W as [_ (_ & W1 & W2)]. split; [exact W1|exact W2]. }
    destruct WT as [WK WP].
    assert (FK : forall v x, In v (map (given p) vs) -> row c = Some x -> same_kind x v).
    { intros v x Hin Hx. apply in_map_iff in Hin as (y & <- & Hy). now apply WK. }
    destruct (named_some c o (fixed_vals f) FN) as (e & He). exists e. split.
    { unfold prop_expression. rewrite fixed_prop, fixed_op, fixed_some. change (f_op f) with o. change (f_prop f) with p. fold c. rewrite D.
      destruct o; try discriminate NV; exact He. }
    rewrite (named_values c o (fixed_vals f) view e NV He), Vw. rewrite shown_plain by exact D. fold c.
    assert (FX : (exists x v, row c = Some x /\ In v (fixed_vals f) /\ eval_cmp like regex o x v = Some true) <->
                 (exists x v, row c = Some x /\ In v (map (given p) vs) /\ eval_cmp like regex o x v = Some true)).
    { split; intros (x & v & H1 & H2 & H3); exists x, v; (split; [exact H1|]); (split; [now apply FV|exact H3]). }
    rewrite FX.
    assert (EKs : forall x v, row c = Some x -> In v (map (given p) vs) -> same_kind x v) by (intros; eapply FK; eauto).
    destruct o; try discriminate NV.
    all: try (split; intros (x & v & H1 & H2 & H3); exists x, v; (split; [exact H1|]); (split; [exact H2|]);
              match goal with |- eval_cmp _ _ ?o _ _ = _ => exact (proj2 (eval_cmp_kind o x v (EKs x v H1 H2)) H3)
                            | H : eval_cmp _ _ ?o _ _ = _ |- _ => exact (proj1 (eval_cmp_kind o x v (EKs x v H1 H2)) H3) end).
    + (* Neq *) destruct (N eq_refl) as [(v0 & [= Ev]) Hr]. subst vs. destruct (row c) as [x|] eqn:Hr2; [|congruence].
      assert (Kd : same_kind x (given p v0)) by (apply EKs; [reflexivity|now left]).
      pose proof (eval_cmp_kind FNeq x (given p v0) Kd) as EK. cbn beta iota in EK. split.
      * intros (x' & v & [= <-] & [<-|[]] & H3) a b [= <-] [<-|[]]. now apply EK.
      * intros H. exists x, (given p v0). split; [reflexivity|]. split; [now left|]. apply EK. apply H; [reflexivity|now left].
    + (* Like *) split.
      * intros (x & v & H1 & H2 & H3). apply (pattern_cmp FLike x v eq_refl) in H3 as (a & b & -> & -> & H3). exists a, b. auto.
      * intros (a & b & H1 & H2 & H3). exists (VStr a), (VStr b). split; [exact H1|]. split; [exact H2|]. apply pattern_cmp; eauto.
    + (* NotLike *) destruct (N eq_refl) as [(v0 & [= Ev]) Hr]. subst vs. destruct (row c) as [x|] eqn:Hr2; [|congruence]. split.
      * intros (x' & v & [= <-] & [<-|[]] & H3) a b [= Ea] [Eb|[]]. apply (pattern_cmp FNotLike x _ eq_refl) in H3 as (a' & b' & Ha & Hb & H3). congruence.
      * intros H. destruct (WP eq_refl v0 (or_introl eq_refl)) as (b & ->).
        assert (Gb : given p (VStr b) = VStr b) by (unfold given; destruct (p_time p); reflexivity).
        assert (Kd : same_kind x (given p (VStr b))) by (apply EKs; [reflexivity|now left]). rewrite Gb in Kd.
        destruct x as [|a| |]; try contradiction. exists (VStr a), (VStr b). split; [reflexivity|]. split; [left; exact Gb|].
        apply pattern_cmp; [reflexivity|]. exists a, b. split; [reflexivity|]. split; [reflexivity|]. apply H; [reflexivity|left; exact Gb].
    + (* Regex *) split.
      * intros (x & v & H1 & H2 & H3). apply (pattern_cmp FRegex x v eq_refl) in H3 as (a & b & -> & -> & H3). exists a, b. auto.
      * intros (a & b & H1 & H2 & H3). exists (VStr a), (VStr b). split; [exact H1|]. split; [exact H2|]. apply pattern_cmp; eauto.
    + (* NotRegex *) destruct (N eq_refl) as [(v0 & [= Ev]) Hr]. subst vs. destruct (row c) as [x|] eqn:Hr2; [|congruence]. split.
      * intros (x' & v & [= <-] & [<-|[]] & H3) a b [= Ea] [Eb|[]]. apply (pattern_cmp FNotRegex x _ eq_refl) in H3 as (a' & b' & Ha & Hb & H3). congruence.
      * intros H. destruct (WP eq_refl v0 (or_introl eq_refl)) as (b & ->).
        assert (Gb : given p (VStr b) = VStr b) by (unfold given; destruct (p_time p); reflexivity).
        assert (Kd : same_kind x (given p (VStr b))) by (apply EKs; [reflexivity|now left]). rewrite Gb in Kd.
        destruct x as [|a| |]; try contradiction. exists (VStr a), (VStr b). split; [reflexivity|]. split; [left; exact Gb|].
        apply pattern_cmp; [reflexivity|]. exists a, b. split; [reflexivity|]. split; [reflexivity|]. apply H; [reflexivity|left; exact Gb].
Qed.

(** ** Lists of filters *)
Lemma all_some_map {A B} (g : A -> option B) l : (forall x, In x l -> exists y, g x = Some y) ->
  exists ys, all_some (map g l) = Some ys /\ (forall y, In y ys <-> exists x, In x l /\ g x = Some y) /\ (l <> [] -> ys <> []).
Proof.
  induction l as [|x l IH]; intros H.
  - exists []. split; [reflexivity|]. split; [|congruence]. intros y. split; [intros []|intros (x & [] & _)].
  - destruct (H x (or_introl eq_refl)) as (y & Hy). destruct IH as (ys & Ha & Hin & _); [intros z Hz; apply H; now right|].
    exists (y :: ys). cbn [map all_some]. rewrite Hy, Ha. split; [reflexivity|]. split; [|discriminate]. intros z. split.
    + intros [<-|Hz]; [exists x; split; [now left|exact Hy]|]. apply Hin in Hz as (x' & H1 & H2). exists x'. split; [now right|exact H2].
    + intros (x' & [<-|H1] & H2); [left; congruence|right; apply Hin; eauto].
Qed.
Lemma find_dict_some c ds d : find_dict c ds = Some d -> In (c, d) ds.
Proof.
  induction ds as [|[x e] ds IH]; [discriminate|]. cbn. destruct (String.eqb x c) eqn:E; intros H; [|right; now apply IH].
  apply String.eqb_eq in E. left. congruence.
Qed.
Lemma find_dict_none c ds d : find_dict c ds = None -> ~ In (c, d) ds.
Proof.
  induction ds as [|[x e] ds IH]; [intros _ []|]. cbn. destruct (String.eqb x c) eqn:E; [discriminate|]. intros H [X|X]; [|now apply IH].
  injection X as -> ->. now rewrite String.eqb_refl in E.
Qed.
Lemma decode_cols_in fs c d : In (c, d) (decode_cols (map fix_filter fs)) <->
  exists f, In f fs /\ is_pattern (f_op f) = true /\ p_col (f_prop f) = c /\ p_dict (f_prop f) = Some d.
Proof.
  unfold decode_cols. rewrite in_flat_map. split.
  - intros (g & Hg & Hin). apply in_map_iff in Hg as (f & <- & Hf). rewrite fixed_prop, fixed_op in Hin. exists f.
    destruct (is_pattern (f_op f)); [|destruct Hin]. destruct (p_dict (f_prop f)) as [e|]; [|destruct Hin]. destruct Hin as [[= <- <-]|[]]. auto.
  - intros (f & Hf & P & C & D). exists (fix_filter f). split; [now apply in_map|]. rewrite fixed_prop, fixed_op, P, D. left. congruence.
Qed.

(** Filters that can be combined: one column is one property, and a dictionary property is not
    compared with a pattern in one filter and with a value in another. *)
Definition combine (fs : list Filter) : Prop :=
  forall f g, In f fs -> In g fs -> p_col (f_prop f) = p_col (f_prop g) ->
    f_prop f = f_prop g /\
    (p_dict (f_prop f) <> None -> is_pattern (f_op f) = true -> needs_values (f_op g) = true -> is_pattern (f_op g) = true).

Lemma sees_decoded fs f row : combine fs -> In f fs -> sees f row (decode_row (decode_cols (map fix_filter fs)) row).
Proof.
  intros C Hf. unfold sees, decode_row. set (c := p_col (f_prop f)). set (ds := decode_cols (map fix_filter fs)).
  destruct (find_dict c ds) as [d'|] eqn:F.
  - apply find_dict_some in F. apply decode_cols_in in F as (g & Hg & P & Hc & D). destruct (C g f Hg Hf Hc) as [E M].
    rewrite <- E, D. destruct (needs_values (f_op f)) eqn:NV; [|now right]. rewrite (M ltac:(congruence) P eq_refl). reflexivity.
  - destruct (p_dict (f_prop f)) as [d|] eqn:D; [|reflexivity]. destruct (needs_values (f_op f)) eqn:NV; [|now left].
    destruct (is_pattern (f_op f)) eqn:P; [|reflexivity]. exfalso. apply (find_dict_none c ds d F). apply decode_cols_in. exists f. auto.
Qed.

(** ** C58 *)
(** A report with filters is answered, and considers exactly the rows that meet every filter. *)
Theorem C58_filters_partial fs row :
  (forall f, In f fs -> well_typed f row /\ good_row (f_prop f) row /\ simple f row) -> combine fs ->
  exists b, filtered like regex fs row = Some b /\ (b = true <-> forall f, In f fs -> meets like regex f row).
Proof.
  intros H C. destruct fs as [|f0 fs0]; [exists true; split; [reflexivity|split; [intros _ f []|reflexivity]]|].
  set (fs := f0 :: fs0) in *. set (view := decode_row (decode_cols (map fix_filter fs)) row).
  assert (M : forall f, In f fs -> exists e, prop_expression (fix_filter f) = Some e /\ (ev e view = Some true <-> meets like regex f row)).
  { intros f Hf. destruct (H f Hf) as (H1 & H2 & H3). apply filter_meets; auto. now apply sees_decoded. }
  destruct (all_some_map (fun f => prop_expression (fix_filter f)) fs) as (es & Ha & Hin & Hne).
  { intros f Hf. destruct (M f Hf) as (e & He & _). eauto. }
  specialize (Hne ltac:(discriminate)).
  assert (exists e, multi_and es = Some e) as (e & He) by (destruct es; [congruence|eexists; reflexivity]).
  exists (keeps like regex e view). split.
  { unfold filtered. unfold fs. fold fs. unfold event_filters_expression. rewrite map_map, Ha, He. reflexivity. }
  rewrite keeps_true, (multi_and_true es e view He). split.
  - intros X f Hf. destruct (M f Hf) as (x & Hx & Hm). apply Hm, X, Hin. eauto.
  - intros X x Hx. apply Hin in Hx as (f & Hf & Hfx). destruct (M f Hf) as (x' & Hx' & Hm). assert (x' = x) by congruence. subst. apply Hm. now apply X.
Qed.

(** "None of these values" keeps every row that has the property as soon as two of the values
    differ. *)
Theorem C58_none_of_refuted c vs x a b row :
  let f := mkFilter (mkFProp c None false) FNeq (Some vs) in
  row c = Some x -> In a vs -> In b vs -> same_kind x a -> same_kind x b -> ~ same a b ->
  filtered like regex [f] row = Some true /\ (same x a -> ~ meets like regex f row).
Proof.
  intros f Hx Ha Hb Ka Kb Hab. split.
  - unfold filtered, event_filters_expression. cbn [map all_some].
    assert (FV : f_vals (fix_filter f) = Some vs).
    { unfold fix_filter, f. cbn [f_vals f_prop p_time]. f_equal. clear. induction vs as [|v l IH]; [reflexivity|]. cbn [flat_map]. rewrite IH. reflexivity. }
    assert (PE : prop_expression (fix_filter f) = multi_or (map (ECmp FNeq c) vs)).
    { unfold prop_expression. rewrite FV. reflexivity. }
    rewrite PE. destruct (multi_or (map (ECmp FNeq c) vs)) as [e|] eqn:M; [|destruct vs; [destruct Ha|discriminate]].
    cbn [all_some option_map multi_and fold_left]. f_equal. change (decode_row (decode_cols [fix_filter f]) row) with row.
    apply keeps_true. apply (multi_or_true _ _ _ M).
    assert (D : ~ same x a \/ ~ same x b).
    { assert (Dec : forall u v, same_kind u v -> same u v \/ ~ same u v).
      { intros u v K. destruct (same_kind_cmp u v K) as (cc & _ & E & _). destruct cc; [left; now apply E|right|right]; intros X; apply E in X; discriminate. }
      destruct (Dec x a Ka) as [Sa|Sa]; [|now left]. right. intros Sb. apply Hab. clear - Sa Sb.
      destruct x, a, b; cbn in *; try congruence. nia. }
    destruct D as [D|D]; [exists (ECmp FNeq c (a))|exists (ECmp FNeq c b)]; (split; [now apply in_map|]); unfold ev; cbn [eval]; rewrite Hx;
      [pose proof (eval_cmp_kind FNeq x a Ka) as EK|pose proof (eval_cmp_kind FNeq x b Kb) as EK]; cbn beta iota in EK; now apply EK.
  - intros Sx H. unfold meets, f in H. cbn [f_op f_prop f_vals] in H. apply (H x a); [unfold shown; cbn; exact Hx| |exact Sx].
    apply in_map_iff. exists a. split; [reflexivity|exact Ha].
Qed.

(** Rows that do not have the property meet "is not" filters, but are never kept. *)
Theorem C58_absent_refuted c o v vs row :
  let f := mkFilter (mkFProp c None false) o (Some (v :: vs)) in
  negative o = true -> row c = None ->
  meets like regex f row /\ filtered like regex [f] row = Some false.
Proof.
  intros f N Hr. split.
  - unfold meets, f. cbn [f_op f_prop f_vals]. assert (Sh : shown (mkFProp c None false) row = None) by (unfold shown; cbn; exact Hr).
    rewrite Sh. destruct o; try discriminate N; intros; discriminate.
  - assert (PE : exists e, prop_expression (fix_filter f) = Some e /\ ev e row = None).
    { assert (FV : f_vals (fix_filter f) = Some (v :: vs)).
      { unfold fix_filter, f. cbn [f_vals f_prop p_time]. f_equal. clear. induction (v :: vs) as [|y l IH]; [reflexivity|]. cbn [flat_map]. now rewrite IH. }
      assert (Nul : forall l e, ev e row = None -> ev (fold_left EOr (map (ECmp o c) l) e) row = None).
      { induction l as [|y l IH]; intros e He; [exact He|]. cbn [map fold_left]. apply IH. unfold ev. cbn [eval]. fold ev.
        change (or3 (ev e row) (match row c with Some x => eval_cmp like regex o x y | None => None end) = None). now rewrite He, Hr. }
      exists (fold_left EOr (map (ECmp o c) vs) (ECmp o c v)). split.
      - unfold prop_expression. rewrite FV. destruct o; try discriminate N; reflexivity.
      - apply Nul. unfold ev. cbn [eval]. now rewrite Hr. }
    destruct PE as (e & PE & E). unfold filtered, event_filters_expression. cbn [map all_some]. rewrite PE. cbn [all_some option_map multi_and fold_left].
    f_equal. assert (DR : decode_cols [fix_filter f] = []) by (unfold decode_cols; cbn [flat_map]; rewrite fixed_prop, fixed_op; cbn; destruct (is_pattern o); reflexivity).
    rewrite DR. unfold keeps. change (match ev e row with Some true => true | _ => false end = false). now rewrite E.
Qed.

(** A pattern and a value on the same text property in one report: the value is compared as the
    decimal digits of its internal number, so the rows that meet both are lost. *)
Theorem C58_pattern_and_value_refuted c d pat s k row :
  let p := mkFProp c (Some d) false in
  let f1 := mkFilter p FLike (Some [VStr pat]) in
  let f2 := mkFilter p FEq (Some [VStr s]) in
  NoDup d -> nth_error d (Z.to_nat (k - 1)) = Some s -> (1 <= k)%Z -> row c = Some (VInt k) ->
  like s pat = true -> s <> show k ->
  meets like regex f1 row /\ meets like regex f2 row /\ filtered like regex [f1; f2] row = Some false.
Proof.
  intros p f1 f2 ND Hn Hk Hr HL Hne.
  assert (Sh : shown p row = Some (VStr s)) by (unfold shown; cbn; now rewrite Hr, Hn).
  assert (Ky : key_of d s 1 = Some k).
  { destruct (key_of_some d s 1 ltac:(eapply nth_error_In; exact Hn)) as (n & Hn'). rewrite Hn'. f_equal. symmetry. now apply (key_same d s k n). }
  split; [|split].
  - unfold meets, f1. cbn [f_op f_prop f_vals]. exists s, pat. split; [exact Sh|]. split; [now left|exact HL].
  - unfold meets, f2. cbn [f_op f_prop f_vals]. exists (VStr s), (VStr s). split; [exact Sh|]. split; [now left|reflexivity].
  - subst f1 f2 p. unfold filtered, event_filters_expression, fix_filter. cbn [map f_op f_prop f_vals p_time flat_map app].
    cbn [all_some prop_expression f_op f_prop f_vals p_dict encode]. rewrite Ky.
    cbn [p_col named_property_expression map multi_or fold_left all_some option_map multi_and decode_cols flat_map is_pattern f_op f_prop p_dict app].
    f_equal. unfold keeps, decode_row. cbn [eval find_dict]. rewrite String.eqb_refl, Hr. cbn [option_map decode_value].
    rewrite (nth_error_nth _ _ _ Hn). cbn [eval_cmp vcmp]. rewrite HL.
    destruct (String.compare s (show k)) eqn:E; cbn; try reflexivity. exfalso. apply Hne. now apply str_cmp_eq.
Qed.

(** ** C82: a filter on a text no event has: the whole report is refused *)
Lemma encode_none d vs s : In (VStr s) vs -> ~ In s d -> encode d vs = None.
Proof.
  induction vs as [|v vs IH]; intros Hin Hs; [destruct Hin|]. cbn [encode]. destruct v as [|t| |]; try reflexivity. destruct Hin as [[= ->]|Hin].
  - destruct (key_of d s 1) as [n|] eqn:K; [|reflexivity]. exfalso. apply Hs. apply key_of_nth in K as [_ K]. eapply nth_error_In; exact K.
  - rewrite (IH Hin Hs). destruct (key_of d t 1); reflexivity.
Qed.
Lemma all_some_none {A B} (g : A -> option B) l x : In x l -> g x = None -> all_some (map g l) = None.
Proof.
  induction l as [|y l IH]; intros H E; [destruct H|]. cbn [map all_some]. destruct H as [->|H]; [now rewrite E|]. destruct (g y); [|reflexivity]. now rewrite IH.
Qed.
Theorem C82_unseen_value_refuted fs f d vs s row :
  In f fs -> p_dict (f_prop f) = Some d -> p_time (f_prop f) = false -> is_pattern (f_op f) = false ->
  f_vals f = Some vs -> In (VStr s) vs -> ~ In s d ->
  filtered like regex fs row = None.
Proof.
  intros Hf D T P V Hin Hs. unfold filtered. destruct fs as [|f0 fs0]; [destruct Hf|]. unfold event_filters_expression. rewrite map_map.
  rewrite (all_some_none _ _ f Hf); [reflexivity|]. unfold prop_expression. rewrite fixed_prop, fixed_op. unfold fix_filter. cbn [f_vals]. rewrite V, T, D.
  replace (flat_map _ vs) with vs; [rewrite (encode_none d vs s Hin Hs); destruct (f_op f); try discriminate P; reflexivity|].
  clear. induction vs as [|v l IH]; [reflexivity|]. cbn [flat_map app]. now rewrite <- IH.
Qed.
(** Patterns and the values some event had are answered: part of C58_filters_partial; here the
    remaining direction, that nothing else is refused for a dictionary property. *)
Theorem C82_seen_values_partial f d row :
  p_dict (f_prop f) = Some d -> well_typed f row -> (is_pattern (f_op f) = false -> known d f) ->
  exists b, filtered like regex [f] row = Some b.
Proof.
  intros D W K. destruct f as [p o vals]. cbn [f_prop f_op f_vals] in *.
  assert (PE : exists e, prop_expression (fix_filter (mkFilter p o vals)) = Some e).
  { unfold prop_expression. rewrite fixed_prop, fixed_op. cbn [f_prop f_op]. rewrite D. unfold fix_filter. cbn [f_vals f_prop].
    unfold well_typed in W. cbn [f_vals f_prop f_op] in W. destruct vals as [vs|].
    - rewrite D in W. destruct W as (W1 & T & W2). rewrite T.
      replace (flat_map _ vs) with vs by (clear; induction vs as [|v l IH]; [reflexivity|]; cbn [flat_map app]; now rewrite <- IH).
      destruct (is_pattern o) eqn:P.
      + destruct (named_some (p_col p) o vs) as (e & He); [apply W1; destruct o; try discriminate P; reflexivity|]. exists e.
        destruct o; try discriminate P; exact He.
      + destruct (encode_spec d vs) as (ks & Ek & Lk & _).
        { intros v Hv. destruct (W2 v Hv) as (s & ->). exists s. split; [reflexivity|]. apply (K eq_refl vs s eq_refl Hv). }
        rewrite Ek. destruct (needs_values o) eqn:NV.
        * destruct (named_some (p_col p) o ks) as (e & He); [intros ->; destruct vs; [now apply (proj1 W1)|discriminate]|]. exists e.
          destruct o; try discriminate P; exact He.
        * destruct o; try discriminate NV; cbn; eauto.
    - destruct o; try discriminate W; cbn; eauto. }
  destruct PE as (e & PE). unfold filtered, event_filters_expression. cbn [map all_some]. rewrite PE. cbn. eauto.
Qed.

(** ** C83: order comparisons of texts compare the order of first appearance *)
Theorem C83_text_order_refuted c d s t i j row :
  let p := mkFProp c (Some d) false in
  let f := mkFilter p FLt (Some [VStr s]) in
  NoDup d -> (1 <= i)%Z -> (1 <= j)%Z -> nth_error d (Z.to_nat (i - 1)) = Some t -> nth_error d (Z.to_nat (j - 1)) = Some s ->
  row c = Some (VInt i) ->
  filtered like regex [f] row = Some (Z.ltb i j) /\ (meets like regex f row <-> String.compare t s = Lt).
Proof.
  intros p f ND Hi Hj Ht Hs Hr.
  assert (Sh : shown p row = Some (VStr t)) by (unfold shown; cbn; now rewrite Hr, Ht).
  assert (Ky : key_of d s 1 = Some j).
  { destruct (key_of_some d s 1 ltac:(eapply nth_error_In; exact Hs)) as (n & Hn'). rewrite Hn'. f_equal. symmetry. now apply (key_same d s j n). }
  split.
  - subst f p. unfold filtered, event_filters_expression, fix_filter. cbn [map f_op f_prop f_vals p_time flat_map app].
    cbn [all_some prop_expression f_op f_prop f_vals p_dict encode]. rewrite Ky.
    cbn [p_col named_property_expression map multi_or fold_left all_some option_map multi_and decode_cols flat_map is_pattern f_op f_prop p_dict app].
    f_equal. unfold keeps, decode_row. cbn [eval find_dict]. rewrite Hr. cbn [eval_cmp vcmp option_map]. unfold Z.ltb. destruct (Z.compare i j); reflexivity.
  - unfold meets, f. cbn [f_op f_prop f_vals map given]. split.
    + intros (a & b & Ha & [<-|[]] & Hb). rewrite Sh in Ha. injection Ha as <-. exact Hb.
    + intros H. exists (VStr t), (VStr s). split; [exact Sh|]. split; [now left|exact H].
Qed.

(** ** C59 *)
Section Events.
Variable by_name : string -> option Z.
Variable custom : Z -> option (list Member).
Variable row : string -> option V.
(** the row is an event of the given kind *)
Inductive is_event : EventRef -> Prop :=
| is_named name id : by_name name = Some id -> row "event" = Some (VInt id) -> is_event (RName name)
| is_id id : row "event" = Some (VInt id) -> is_event (RId id)
| is_custom id ms m : custom id = Some ms -> In m ms -> is_event (mb_event m) ->
    (forall fs f, mb_filters m = Some fs -> In f fs -> meets like regex f row) -> is_event (RCustom id).
(** the definitions an event refers to exist and are nested at most [n] deep *)
Inductive defined : nat -> EventRef -> Prop :=
| def_name n name id : by_name name = Some id -> defined n (RName name)
| def_id n id : defined n (RId id)
| def_custom n id ms : custom id = Some ms -> ms <> [] -> (forall m, In m ms -> defined n (mb_event m)) -> defined (S n) (RCustom id).
(** member filters: no times (their values are not converted) and no patterns on dictionary
    properties (they are not decoded) *)
Definition member_filter (f : Filter) : Prop :=
  well_typed f row /\ good_row (f_prop f) row /\ simple f row /\
  (needs_values (f_op f) = true -> p_time (f_prop f) = false) /\
  (p_dict (f_prop f) <> None -> is_pattern (f_op f) = false).
Definition small_id (e : EventRef) : Prop := match e with RId id => (0 <= id < 65536)%Z | _ => True end.

Lemma fix_same f : needs_values (f_op f) = true -> p_time (f_prop f) = false -> well_typed f row -> fix_filter f = f.
Proof.
  intros NV T W. destruct f as [p o vals]. unfold well_typed in W. cbn in *. destruct vals as [vs|]; [|congruence].
  unfold fix_filter. cbn. rewrite T. do 2 f_equal. clear. induction vs as [|v l IH]; [reflexivity|]. cbn [flat_map app]. now rewrite IH.
Qed.
Lemma member_meets f : member_filter f -> exists e, prop_expression f = Some e /\ (ev e row = Some true <-> meets like regex f row).
Proof.
  intros (W & G & S0 & T & P).
  assert (Vw : sees f row row).
  { unfold sees. destruct (p_dict (f_prop f)) eqn:D; [|reflexivity]. rewrite (P ltac:(discriminate)). destruct (needs_values (f_op f)); auto. }
  destruct (filter_meets f row row W G S0 Vw) as (e & He & M). exists e. split; [|exact M].
  destruct (needs_values (f_op f)) eqn:NV.
  - rewrite <- (fix_same f NV (T eq_refl) W). exact He.
  - assert (FV : f_vals f = None \/ f_vals f = Some []).
    { unfold well_typed in W. destruct (f_vals f) as [[|v vs]|]; auto. destruct W as [[_ W] _]. rewrite NV in W. discriminate W. discriminate. }
    unfold prop_expression in He |- *. rewrite fixed_prop, fixed_op, fixed_some in He.
    assert (FX : fixed_vals f = []) by (unfold fixed_vals, fix_filter; cbn [f_vals]; destruct FV as [E| E]; rewrite E; reflexivity). rewrite FX in He.
    destruct FV as [E| E]; rewrite E; destruct (f_op f); try discriminate NV; destruct (p_dict (f_prop f)); exact He.
Qed.
Lemma filters_meet fs : fs <> [] -> (forall f, In f fs -> member_filter f) ->
  exists e, event_filters_expression fs = Some e /\ (ev e row = Some true <-> forall f, In f fs -> meets like regex f row).
Proof.
  intros Hne H. destruct (all_some_map prop_expression fs) as (es & Ha & Hin & Hn).
  { intros f Hf. destruct (member_meets f (H f Hf)) as (e & He & _). eauto. }
  specialize (Hn Hne). assert (exists e, multi_and es = Some e) as (e & He) by (destruct es; [congruence|eexists; reflexivity]).
  exists e. unfold event_filters_expression. rewrite Ha. split; [exact He|]. rewrite (multi_and_true es e row He). split.
  - intros X f Hf. destruct (member_meets f (H f Hf)) as (x & Hx & M). apply M, X, Hin. eauto.
  - intros X x Hx. apply Hin in Hx as (f & Hf & Hfx). destruct (member_meets f (H f Hf)) as (x' & Hx' & M). assert (x' = x) by congruence. subst. apply M. now apply X.
Qed.

Definition event_row : Prop := forall x, row "event" = Some x -> exists z, x = VInt z.
Lemma event_is id : event_row -> (ev (ECmp FEq COLUMN_EVENT (VInt id)) row = Some true <-> row "event" = Some (VInt id)).
Proof.
  intros Er. unfold ev. cbn [eval]. change COLUMN_EVENT with "event". destruct (row "event") as [x|] eqn:E; [|split; discriminate].
  destruct (Er x E) as (z & ->). pose proof (eval_cmp_kind FEq (VInt z) (VInt id) I) as EK. cbn beta iota in EK. rewrite EK. cbn. split; congruence.
Qed.

(** all the references that can be reached from an event *)
Inductive reached (e0 : EventRef) : EventRef -> Prop :=
| reached_self : reached e0 e0
| reached_member id ms m : reached e0 (RCustom id) -> custom id = Some ms -> In m ms -> reached e0 (mb_event m).
Definition good_filters (e0 : EventRef) : Prop :=
  forall id ms m fs, reached e0 (RCustom id) -> custom id = Some ms -> In m ms -> mb_filters m = Some fs ->
    fs <> [] /\ forall f, In f fs -> member_filter f.
Lemma reached_trans a b c : reached a b -> reached b c -> reached a c.
Proof. intros H1 H2. induction H2; [exact H1|]. eapply reached_member; eauto. Qed.
Lemma good_member id ms m : good_filters (RCustom id) -> custom id = Some ms -> In m ms -> good_filters (mb_event m).
Proof.
  intros G C Hm id' ms' m' fs' R. apply G. apply (reached_trans _ (mb_event m)); [|exact R]. eapply reached_member; eauto. constructor.
Qed.

(** A query on an event, by name, number or custom definition, selects exactly the rows that
    are such an event. *)
Theorem C59_custom_events_partial n e :
  event_row -> defined n e -> (forall e', reached e e' -> small_id e') -> good_filters e ->
  exists x, event_expression by_name custom n e = Some x /\ (keeps like regex x row = true <-> is_event e).
Proof.
  intros Er Hd. induction Hd as [n name id Hn|n id|n id ms Hc Hne Hm IH]; intros Sm Gf.
  - exists (ECmp FEq COLUMN_EVENT (VInt id)). split; [destruct n; cbn; now rewrite Hn|].
    rewrite keeps_true, (event_is id Er). split; [intros H; econstructor; eauto|]. intros H. inversion H as [nm id' B E'| |]; subst. congruence.
  - exists (ECmp FEq COLUMN_EVENT (VInt id)). pose proof (Sm _ (reached_self _)) as B. cbn in B.
    split; [destruct n; cbn; unfold as_u16; now rewrite Z.mod_small|].
    rewrite keeps_true, (event_is id Er). split; [intros H; now constructor|]. intros H. inversion H; subst; assumption.
  - cbn [event_expression]. rewrite Hc.
    set (g := fun m => match event_expression by_name custom n (mb_event m) with
                       | Some x => match mb_filters m with Some fs => option_map (EAnd x) (event_filters_expression fs) | None => Some x end
                       | None => None end).
    assert (M : forall m, In m ms -> exists x, g m = Some x /\
              (ev x row = Some true <-> is_event (mb_event m) /\ forall fs f, mb_filters m = Some fs -> In f fs -> meets like regex f row)).
    { intros m Hin. destruct (IH m Hin) as (x & Hx & Hk).
      - intros e' R. apply Sm. apply (reached_trans _ (mb_event m)); [|exact R]. eapply reached_member; eauto. constructor.
      - eapply good_member; eauto.
      - rewrite keeps_true in Hk. unfold g. rewrite Hx. destruct (mb_filters m) as [fs|] eqn:F.
        + destruct (Gf id ms m fs (reached_self _) Hc Hin F) as [Hfn Hff]. destruct (filters_meet fs Hfn Hff) as (y & Hy & Hmy).
          rewrite Hy. exists (EAnd x y). split; [reflexivity|]. unfold ev. cbn [eval]. rewrite and3_true. unfold ev in Hk, Hmy. rewrite Hk, Hmy.
          split; [intros [A B]; split; [exact A|]; intros fs' f [= <-]; apply B|intros [A B]; split; [exact A|]; intros f; now apply B].
        + exists x. split; [reflexivity|]. rewrite Hk. split; [intros A; split; [exact A|discriminate]|intros [A _]; exact A]. }
    destruct (all_some_map g ms) as (es & Ha & Hin & Hn).
    { intros m Hi. destruct (M m Hi) as (x & Hx & _). eauto. }
    specialize (Hn Hne). change (map (fun m => _) ms) with (map g ms). rewrite Ha.
    assert (exists x, multi_or es = Some x) as (x & Hx) by (destruct es; [congruence|eexists; reflexivity]).
    exists x. split; [exact Hx|]. rewrite keeps_true, (multi_or_true es x row Hx). split.
    + intros (y & Hy & Ht). apply Hin in Hy as (m & Hi & Hg). destruct (M m Hi) as (y' & Hy' & My). assert (y' = y) by congruence. subst y'.
      apply My in Ht as [A B]. now apply (is_custom id ms m).
    + intros H. inversion H as [| |id' ms' m C Hi A B]; subst. assert (ms' = ms) by congruence. subst ms'.
      destruct (M m Hi) as (y & Hy & My). exists y. split; [apply Hin; eauto|]. apply My. split; assumption.
Qed.

(** An event numbered 65536 or more selects the rows of another event. *)
Theorem C59_large_id_refuted n id :
  event_row -> (65536 <= id)%Z ->
  exists x, event_expression by_name custom n (RId id) = Some x /\
    (keeps like regex x row = true <-> row "event" = Some (VInt (id mod 65536))) /\ (id mod 65536 <> id)%Z.
Proof.
  intros Er B. exists (ECmp FEq COLUMN_EVENT (VInt (as_u16 id))). split; [destruct n; reflexivity|]. split.
  - rewrite keeps_true. apply (event_is _ Er).
  - pose proof (Z.mod_pos_bound id 65536 ltac:(lia)). lia.
Qed.

(** A pattern filter of a member on a text property: no row is selected. *)
Theorem C59_pattern_filter_refuted n id e x fs f c d vs :
  custom id = Some [mkMember e (Some fs)] -> In f fs ->
  f = mkFilter (mkFProp c (Some d) false) FLike (Some vs) -> good_row (f_prop f) row ->
  event_expression by_name custom (S n) (RCustom id) = Some x -> keeps like regex x row = false.
Proof.
  intros C Hf Ef G H. cbn [event_expression] in H. rewrite C in H. cbn [map mb_event mb_filters] in H.
  destruct (event_expression by_name custom n e) as [y|]; [|discriminate].
  destruct (event_filters_expression fs) as [z|] eqn:E; [|discriminate]. cbn in H. injection H as <-.
  destruct (keeps like regex (EAnd y z) row) eqn:K; [|reflexivity]. exfalso. apply keeps_true in K. unfold ev in K. cbn [eval] in K. apply and3_true in K as [_ K].
  unfold event_filters_expression in E. destruct (all_some (map prop_expression fs)) as [es|] eqn:A; [|discriminate].
  pose proof (proj1 (multi_and_true es z row E) K) as X. clear - A Hf Ef G X.
  assert (Hin : exists w, prop_expression f = Some w /\ In w es).
  { clear X. revert es A. induction fs as [|g l IH]; intros es A; [destruct Hf|]. cbn [map all_some] in A. destruct (prop_expression g) as [w|] eqn:Eg; [|discriminate].
    destruct (all_some (map prop_expression l)) as [es'|]; [|discriminate]. cbn in A. injection A as <-. destruct Hf as [->|Hf].
    - exists w. split; [exact Eg|now left].
    - destruct (IH Hf es' eq_refl) as (w' & H1 & H2). exists w'. split; [exact H1|now right]. }
  destruct Hin as (w & Hw & Hi). specialize (X w Hi). subst f. unfold prop_expression in Hw. cbn [f_vals f_op f_prop p_col] in Hw.
  apply (named_values c FLike vs row w eq_refl Hw) in X as (a & v & Ha & _ & Ht). unfold good_row in G. cbn [f_prop p_dict p_col] in G. destruct G as [_ G].
  destruct (G a Ha) as (k & -> & _). cbn in Ht. discriminate.
Qed.
End Events.
End Proofs.
Print Assumptions C58_filters_partial.
Print Assumptions C58_none_of_refuted.
Print Assumptions C58_absent_refuted.
Print Assumptions C58_pattern_and_value_refuted.
Print Assumptions C82_unseen_value_refuted.
Print Assumptions C82_seen_values_partial.
Print Assumptions C83_text_order_refuted.
Print Assumptions C59_custom_events_partial.
Print Assumptions C59_large_id_refuted.
Print Assumptions C59_pattern_filter_refuted.

(** ** Witnesses *)
Module Example58.
Definition pre (a p : string) : bool := String.prefix p a.
Definition city := mkFProp "city" (Some ["rome"; "paris"; "athens"]) false.
Definition plan := mkFProp "plan" (Some ["free"; "pro"]) false.
Definition price := mkFProp "price" None false.
Definition at_ := mkFProp "at" None true.
Definition row (c : string) : option V :=
  if String.eqb c "city" then Some (VInt 2) else
  if String.eqb c "plan" then Some (VInt 1) else
  if String.eqb c "price" then Some (VDec 1050 2) else
  if String.eqb c "at" then Some (VInt 100) else
  if String.eqb c "event" then Some (VInt 7) else None.
Definition fs :=
  [mkFilter city FLike (Some [VStr "pa"]); mkFilter city FExists None;
   mkFilter plan FNeq (Some [VStr "pro"]); mkFilter price FGte (Some [VDec 105 1; VDec 2000 2]);
   mkFilter at_ FLt (Some [VDec 101 0])].
Example C58_witness :
  (forall f, In f fs -> well_typed f row /\ good_row (f_prop f) row /\ simple f row) /\ combine fs /\
  filtered pre pre fs row = Some true.
Proof.
  split; [|split; [|reflexivity]].
  - intros f Hf. unfold fs in Hf. cbn [In] in Hf.
    assert (NC : NoDup ["rome"; "paris"; "athens"]) by (repeat (constructor; [cbn; intuition discriminate|]); constructor).
    assert (NP : NoDup ["free"; "pro"]) by (repeat (constructor; [cbn; intuition discriminate|]); constructor).
    destruct Hf as [<-|[<-|[<-|[<-|[<-|[]]]]]].
    + split; [|split].
      * split; [split; [discriminate|reflexivity]|]. split; [reflexivity|]. intros v [<-|[]]. eauto.
      * split; [exact NC|]. intros x [= <-]. exists 2%Z. split; [reflexivity|cbn; lia].
      * split; [reflexivity|]. split; [discriminate|discriminate].
    + split; [reflexivity|split].
      * split; [exact NC|]. intros x [= <-]. exists 2%Z. split; [reflexivity|cbn; lia].
      * split; [reflexivity|]. split; [|discriminate]. intros d _ _ vs s X. discriminate.
    + split; [|split].
      * split; [split; [discriminate|reflexivity]|]. split; [reflexivity|]. intros v [<-|[]]. eauto.
      * split; [exact NP|]. intros x [= <-]. exists 1%Z. split; [reflexivity|cbn; lia].
      * split; [reflexivity|]. split.
        -- intros d [= <-] _ vs s [= <-] [[= <-]|[]]. cbn. tauto.
        -- intros _. split; [exists (VStr "pro"); reflexivity|discriminate].
    + split; [|split; [exact I|]].
      * split; [split; [discriminate|reflexivity]|]. split; [discriminate|]. split; [|discriminate].
        intros v x [<-|[<-|[]]] [= <-]; exact I.
      * split; [cbn; congruence|]. split; discriminate.
    + split; [|split; [exact I|]].
      * split; [split; [discriminate|reflexivity]|]. split; [intros v [<-|[]] _; eauto|]. split; [|discriminate].
        intros v x [<-|[]] [= <-]; exact I.
      * split; [cbn; congruence|]. split; discriminate.
  - intros f g Hf Hg. unfold fs in Hf, Hg. cbn [In] in Hf, Hg.
    destruct Hf as [<-|[<-|[<-|[<-|[<-|[]]]]]]; destruct Hg as [<-|[<-|[<-|[<-|[<-|[]]]]]]; intros E; try discriminate E;
      (split; [reflexivity|]); cbn; intros; congruence.
Qed.
(** city is not rome and not paris: kept although the city is paris *)
Example C58_none_of_witness :
  filtered pre pre [mkFilter (mkFProp "price" None false) FNeq (Some [VDec 1050 2; VDec 1 0])] row = Some true /\
  filtered pre pre [mkFilter (mkFProp "age" None false) FNeq (Some [VInt 3])] row = Some false /\
  filtered pre pre [mkFilter city FLike (Some [VStr "pa"]); mkFilter city FEq (Some [VStr "paris"])] row = Some false /\
  filtered pre pre [mkFilter city FEq (Some [VStr "oslo"])] row = None /\
  (* paris was seen before athens: it counts as smaller *)
  filtered pre pre [mkFilter city FLt (Some [VStr "athens"])] row = Some true.
Proof. repeat split. Qed.

(** purchase-like = buy, or a nested "visit from paris" with event 7 *)
Definition by_name (n : string) : option Z := if String.eqb n "buy" then Some 3%Z else None.
Definition custom (i : Z) : option (list Member) :=
  if Z.eqb i 1 then Some [mkMember (RName "buy") None; mkMember (RCustom 2) (Some [mkFilter city FEq (Some [VStr "paris"; VStr "rome"])])]
  else if Z.eqb i 2 then Some [mkMember (RId 7) (Some [mkFilter price FGt (Some [VDec 1 0])])] else None.
Example C59_witness :
  event_row row /\ defined by_name custom 2 (RCustom 1) /\ good_filters custom row (RCustom 1) /\
  (forall e', reached custom (RCustom 1) e' -> small_id e') /\
  is_event pre pre by_name custom row (RCustom 1).
Proof.
  assert (R : forall e', reached custom (RCustom 1) e' -> In e' [RCustom 1; RName "buy"; RCustom 2; RId 7]).
  { intros e' H. induction H as [|id ms m H IH C Hm]; [now left|]. cbn [In] in IH.
    destruct IH as [E|[E|[E|[E|[]]]]]; inversion E; subst id; cbn in C; injection C as <-; cbn [In] in Hm.
    - destruct Hm as [<-|[<-|[]]]; cbn; tauto.
    - destruct Hm as [<-|[]]; cbn; tauto. }
  assert (NC : NoDup ["rome"; "paris"; "athens"]) by (repeat (constructor; [cbn; intuition discriminate|]); constructor).
  split; [|split; [|split; [|split]]].
  - intros x [= <-]. eauto.
  - eapply def_custom; [reflexivity|discriminate|]. intros m [<-|[<-|[]]]; cbn.
    + eapply def_name. reflexivity.
    + eapply def_custom; [reflexivity|discriminate|]. intros m [<-|[]]; cbn. apply def_id.
  - intros id ms m fs0 H C Hm F. apply R in H. cbn [In] in H.
    destruct H as [E|[E|[E|[E|[]]]]]; inversion E; subst id; cbn in C; injection C as <-; cbn [In] in Hm.
    + destruct Hm as [<-|[<-|[]]]; [discriminate|]. cbn in F. injection F as <-. split; [discriminate|]. intros f [<-|[]].
      split; [|split; [|split; [|split; [reflexivity|reflexivity]]]].
      * split; [split; [discriminate|reflexivity]|]. split; [reflexivity|]. intros v [<-|[<-|[]]]; eauto.
      * split; [exact NC|]. intros x [= <-]. exists 2%Z. split; [reflexivity|cbn; lia].
      * split; [reflexivity|]. split; [|discriminate]. intros d [= <-] _ vs s [= <-] [[= <-]|[[= <-]|[]]]; cbn; tauto.
    + destruct Hm as [<-|[]]. cbn in F. injection F as <-. split; [discriminate|]. intros f [<-|[]].
      split; [|split; [exact I|split; [|split; [reflexivity|reflexivity]]]].
      * split; [split; [discriminate|reflexivity]|]. split; [discriminate|]. split; [|discriminate]. intros v x [<-|[]] [= <-]; exact I.
      * split; [cbn; congruence|]. split; discriminate.
  - intros e' H. apply R in H. cbn [In] in H. destruct H as [<-|[<-|[<-|[<-|[]]]]]; cbn; lia.
  - eapply is_custom; [reflexivity|right; left; reflexivity| |].
    + cbn. eapply is_custom; [reflexivity|left; reflexivity|now constructor|].
      intros fs0 f [= <-] [<-|[]]. exists (VDec 1050 2), (VDec 1 0). split; [reflexivity|]. split; [now left|cbn; lia].
    + intros fs0 f [= <-] [<-|[]]. exists (VStr "paris"), (VStr "paris"). split; [reflexivity|]. split; [now left|reflexivity].
Qed.
Example C59_refuted_witness :
  (exists x, event_expression by_name custom 0 (RId 65543) = Some x /\ keeps pre pre x row = true) /\
  (let c2 (_ : Z) := Some [mkMember (RId 7) (Some [mkFilter city FLike (Some [VStr "pa"])])] in
   exists x, event_expression by_name c2 1 (RCustom 1) = Some x /\ keeps pre pre x row = false).
Proof. split; eexists; split; reflexivity. Qed.
End Example58.
