(** Property C40: the storage columns of properties. *)
From Coq Require Import List NArith ZArith String Ascii Bool Lia.
From Verif Require Import AMap Kv KvKeys KvKeysFacts KvFacts Md MdOps MdFrame MdIndex MdEntities MdWf PropsNames.
Import ListNotations.
Local Open Scope string_scope.

(** ** Column names *)
Definition us : ascii := "_"%char.
Fixpoint no_us (s : string) : bool :=
  match s with EmptyString => true | String c r => negb (Ascii.eqb c us) && no_us r end.
Lemma dec_no_us n : no_us (dec n) = true.
Proof.
  unfold dec. assert (H : forall d, no_us (DecimalString.NilEmpty.string_of_uint d) = true) by (induction d; cbn; auto).
  generalize (N.to_uint n). intro d. destruct d; cbn; auto; apply H.
Qed.
Lemma last_us a b a' b' : no_us b = true -> no_us b' = true -> a ++ String us b = a' ++ String us b' -> a = a' /\ b = b'.
Proof.
  assert (In1 : forall x y, no_us (x ++ String us y) = false) by (induction x as [|c x IH]; intro y; cbn; [reflexivity|rewrite IH; apply andb_false_r]).
  intros Hb Hb'. revert a'. induction a as [|c a IH]; intros [|c' a']; cbn; intro E.
  - injection E as ->. auto.
  - injection E as _ ->. rewrite In1 in Hb. discriminate.
  - injection E as _ <-. rewrite In1 in Hb'. discriminate.
  - injection E as -> E. destruct (IH _ E). subst. auto.
Qed.
Lemma first_us a b a' b' : no_us a = true -> no_us a' = true -> a ++ String us b = a' ++ String us b' -> a = a' /\ b = b'.
Proof.
  revert a'. induction a as [|c a IH]; intros [|c' a'] Ha Ha' E; cbn in *.
  - injection E as ->. auto.
  - injection E as <- _. discriminate.
  - injection E as -> _. discriminate.
  - injection E as -> E. apply andb_prop in Ha as [_ Ha], Ha' as [_ Ha']. destruct (IH _ Ha Ha' E). subst. auto.
Qed.
(** The column of a non-system property determines its kind, type name and order. *)
Lemma column_inj snake x y : pp_system x = false -> pp_system y = false -> column_name snake x = column_name snake y ->
  pp_kind x = pp_kind y /\ short_name (pp_type x) = short_name (pp_type y) /\ pp_order x = pp_order y.
Proof.
  unfold column_name. intros -> ->. destruct (pp_kind x) as [|g], (pp_kind y) as [|h]; try discriminate.
  - intro E. change ("e_" ++ short_name (pp_type x) ++ String us (dec (pp_order x)) = "e_" ++ short_name (pp_type y) ++ String us (dec (pp_order y))) in E.
    rewrite <- !app_assoc_s in E. apply last_us in E as [E1 E2]; auto using dec_no_us.
    split; [reflexivity|]. split; [cbn in E1; congruence|now apply dec_inj].
  - intro E. change ("g_" ++ dec g ++ String us (short_name (pp_type x) ++ String us (dec (pp_order x)))
                   = "g_" ++ dec h ++ String us (short_name (pp_type y) ++ String us (dec (pp_order y)))) in E.
    cbn [append] in E. injection E as E. apply first_us in E as [E1 E]; auto using dec_no_us.
    apply last_us in E as [E2 E3]; auto using dec_no_us. apply dec_inj in E1. split; [now rewrite E1|]. split; [exact E2|now apply dec_inj].
Qed.

(** ** The order numbers of a project's properties *)
Section Project.
Variable p : N.
Notation dk kd id := (KData (kind_ns p kd) id).
Notation osq t := (KOrderSeq p (short_name t)).
Record OrderOk (s : Store) : Prop := {
  oo_rec : forall kd id v, kg (dk kd id) s = Some v -> exists x, v = VRec (RProperty x) /\ pp_id x = id /\ pp_kind x = kd /\
     match kg (osq (pp_type x)) s with Some (VNum m) => (pp_order x <= m)%N | _ => False end;
  oo_inj : forall kd id x kd' id' x', kg (dk kd id) s = Some (VRec (RProperty x)) -> kg (dk kd' id') s = Some (VRec (RProperty x')) ->
     short_name (pp_type x) = short_name (pp_type x') -> pp_order x = pp_order x' -> kd = kd' /\ id = id';
  oo_seq : forall t, match kg (osq t) s with None => True | Some (VNum _) => True | _ => False end
}.
Definition order_keys (k : Key) : Prop :=
  match k with
  | KData (NProj q PEventProps) _ | KData (NProj q (PGroupProps _)) _ => q = p
  | KOrderSeq q _ => q = p
  | _ => False
  end.
Lemma wf_osq t : wf_key (osq t) = true. Proof. now destruct t as [[]|[]]. Qed.
Lemma wf_dk kd id : wf_key (dk kd id) = true. Proof. now destruct kd. Qed.
Lemma OrderOk_frame (P : Key -> Prop) s s' : only P s s' -> (forall k, order_keys k -> ~ P k) -> OrderOk s -> OrderOk s'.
Proof.
  intros O D [H1 H2 H3].
  assert (Ed : forall kd id, kg (dk kd id) s' = kg (dk kd id) s) by (intros; apply (only_kg P); [exact O|apply wf_dk|apply D; destruct kd; reflexivity]).
  assert (Es : forall t, kg (osq t) s' = kg (osq t) s) by (intros; apply (only_kg P); [exact O|apply wf_osq|apply D; reflexivity]).
  constructor.
  - intros kd id v. rewrite Ed. intro H. destruct (H1 _ _ _ H) as (x & A & B & C & E). exists x. rewrite Es. auto.
  - intros kd id x kd' id' x'. rewrite !Ed. apply H2.
  - intro t. rewrite Es. apply H3.
Qed.
Lemma dk_inj (kd : PropKind) (id : N) (kd' : PropKind) (id' : N) : dk kd id = dk kd' id' -> kd = kd' /\ id = id'.
Proof. destruct kd, kd'; cbn; intro E; injection E; intros; subst; auto; discriminate. Qed.
Lemma dk_dec (kd : PropKind) (id : N) (kd' : PropKind) (id' : N) : {kd' = kd /\ id' = id} + {~ (kd' = kd /\ id' = id)}.
Proof.
  assert (D : {(kd', id') = (kd, id)} + {(kd', id') <> (kd, id)}) by repeat decide equality.
  destruct D as [[= -> ->]|D]; [left; auto|right; intros [-> ->]; auto].
Qed.
(** Storing a property with the next number of its type. *)
Lemma OrderOk_new s kd id x s1 : OrderOk s -> pp_id x = id -> pp_kind x = kd ->
  next_zero_seq (render (osq (pp_type x))) s = (Ok (pp_order x), s1) -> OrderOk (kput (render (dk kd id)) (VRec (RProperty x)) s1).
Proof.
  intros [H1 H2 H3] Hi Hk En. unfold next_zero_seq, next_from in En. fold (kg (osq (pp_type x)) s) in En.
  pose proof (H3 (pp_type x)) as H3x. set (s2 := kput _ _ _).
  assert (E1 : s1 = kput (render (osq (pp_type x))) (VNum (pp_order x)) s /\
     forall kd' id' y, kg (dk kd' id') s = Some (VRec (RProperty y)) -> short_name (pp_type y) = short_name (pp_type x) -> (pp_order y < pp_order x)%N).
  { destruct (kg (osq (pp_type x)) s) as [[m| |]|] eqn:Es; try contradiction; cbn in En; injection En as Eo <-; rewrite Eo; (split; [reflexivity|]).
    - intros kd' id' y Hy Et. destruct (H1 _ _ _ Hy) as (z & [= <-] & _ & _ & Hl). rewrite Et, Es in Hl. lia.
    - intros kd' id' y Hy Et. destruct (H1 _ _ _ Hy) as (z & [= <-] & _ & _ & Hl). rewrite Et, Es in Hl. contradiction. }
  destruct E1 as [E1 Lt].
  assert (Ks : forall t, kg (osq t) s2 = if string_dec (short_name t) (short_name (pp_type x)) then Some (VNum (pp_order x)) else kg (osq t) s).
  { intro t. unfold s2. rewrite kg_put_ne; [|apply wf_osq|apply wf_dk|destruct kd; discriminate]. rewrite E1.
    destruct (string_dec (short_name t) (short_name (pp_type x))) as [->|Ne]; [apply kg_put_eq|].
    apply kg_put_ne; [apply wf_osq|apply wf_osq|congruence]. }
  assert (Kx : kg (dk kd id) s2 = Some (VRec (RProperty x))) by apply kg_put_eq.
  assert (Ko : forall kd' id', ~ (kd' = kd /\ id' = id) -> kg (dk kd' id') s2 = kg (dk kd' id') s).
  { intros kd' id' Ne. unfold s2. rewrite kg_put_ne; [|apply wf_dk|apply wf_dk|intro E; now apply Ne, dk_inj].
    rewrite E1. apply kg_put_ne; [apply wf_dk|apply wf_osq|destruct kd'; discriminate]. }
  constructor.
  - intros kd' id' v Hv. destruct (dk_dec kd id kd' id') as [[-> ->]|Ne].
    + rewrite Kx in Hv. injection Hv as <-. exists x. repeat split; auto. rewrite Ks. destruct (string_dec _ _); [lia|congruence].
    + rewrite Ko in Hv by exact Ne. destruct (H1 _ _ _ Hv) as (y & -> & A & B & C). exists y. repeat split; auto. rewrite Ks.
      destruct (string_dec _ _) as [E|_]; [|exact C]. specialize (Lt _ _ _ Hv E). lia.
  - intros ka ia a kb ib b Ha Hb Et Eo. destruct (dk_dec kd id ka ia) as [[-> ->]|Na], (dk_dec kd id kb ib) as [[-> ->]|Nb]; auto.
    + rewrite Kx in Ha. injection Ha as <-. rewrite Ko in Hb by exact Nb. specialize (Lt _ _ _ Hb (eq_sym Et)). lia.
    + rewrite Kx in Hb. injection Hb as <-. rewrite Ko in Ha by exact Na. specialize (Lt _ _ _ Ha Et). lia.
    + rewrite Ko in Ha by exact Na. rewrite Ko in Hb by exact Nb. eapply H2; eauto.
  - intro t. rewrite Ks. destruct (string_dec _ _); [exact Logic.I|apply H3].
Qed.
(** Rewriting a property, keeping type and order. *)
Lemma OrderOk_same s kd id x y : OrderOk s -> kg (dk kd id) s = Some (VRec (RProperty x)) ->
  pp_id y = pp_id x -> pp_kind y = pp_kind x -> pp_type y = pp_type x -> pp_order y = pp_order x ->
  OrderOk (kput (render (dk kd id)) (VRec (RProperty y)) s).
Proof.
  intros [H1 H2 H3] Hx Ei Ek Et Eo. set (s2 := kput _ _ _).
  assert (Ks : forall t, kg (osq t) s2 = kg (osq t) s) by (intro t; apply kg_put_ne; [apply wf_osq|apply wf_dk|destruct kd; discriminate]).
  assert (Ky : kg (dk kd id) s2 = Some (VRec (RProperty y))) by apply kg_put_eq.
  assert (Ko : forall kd' id', ~ (kd' = kd /\ id' = id) -> kg (dk kd' id') s2 = kg (dk kd' id') s).
  { intros kd' id' Ne. apply kg_put_ne; [apply wf_dk|apply wf_dk|intro E; now apply Ne, dk_inj]. }
  assert (Old : forall kd' id' z, kg (dk kd' id') s2 = Some (VRec (RProperty z)) ->
     exists z', kg (dk kd' id') s = Some (VRec (RProperty z')) /\ pp_type z' = pp_type z /\ pp_order z' = pp_order z /\ pp_id z' = pp_id z /\ pp_kind z' = pp_kind z).
  { intros kd' id' z Hz. destruct (dk_dec kd id kd' id') as [[-> ->]|Ne].
    - rewrite Ky in Hz. injection Hz as <-. exists x. auto.
    - rewrite Ko in Hz by exact Ne. exists z. auto. }
  constructor.
  - intros kd' id' v Hv. destruct (dk_dec kd id kd' id') as [[-> ->]|Ne].
    + rewrite Ky in Hv. injection Hv as <-. destruct (H1 _ _ _ Hx) as (z & [= <-] & A & B & C). exists y. rewrite Ks, Et, Eo, Ei, Ek. auto.
    + rewrite Ko in Hv by exact Ne. destruct (H1 _ _ _ Hv) as (z & -> & A & B & C). exists z. rewrite Ks. auto.
  - intros ka ia a kb ib b Ha Hb Ets Eos. destruct (Old _ _ _ Ha) as (a' & Ha' & A1 & A2 & _). destruct (Old _ _ _ Hb) as (b' & Hb' & B1 & B2 & _).
    apply (H2 _ _ a' _ _ b'); auto; congruence.
  - intro t. rewrite Ks. apply H3.
Qed.
Lemma OrderOk_del s kd id : OrderOk s -> OrderOk (kdel (render (dk kd id)) s).
Proof.
  intros [H1 H2 H3]. set (s2 := kdel _ _).
  assert (Ks : forall t, kg (osq t) s2 = kg (osq t) s) by (intro t; apply kg_del_ne; [apply wf_osq|apply wf_dk|destruct kd; discriminate]).
  assert (Old : forall kd' id' v, kg (dk kd' id') s2 = Some v -> kg (dk kd' id') s = Some v).
  { intros kd' id' v. destruct (dk_dec kd id kd' id') as [[-> ->]|Ne].
    - unfold s2. now rewrite kg_del_eq.
    - unfold s2. rewrite kg_del_ne; [auto|apply wf_dk|apply wf_dk|intro E; now apply Ne, dk_inj]. }
  constructor.
  - intros kd' id' v Hv. apply Old in Hv. destruct (H1 _ _ _ Hv) as (z & -> & A & B & C). exists z. rewrite Ks. auto.
  - intros ka ia a kb ib b Ha Hb. apply Old in Ha, Hb. eapply H2; eauto.
  - intro t. rewrite Ks. apply H3.
Qed.
Lemma only_refl_ P (s : Store) : only P s s. Proof. apply only_refl. Qed.
Lemma prop_create_order snake kd name d t b s : OrderOk s -> OrderOk (snd (prop_create snake p kd name d t b s)).
Proof.
  intro Hx. unfold prop_create. destruct (check_insert _ _); [|exact Hx].
  destruct (next_seq _ s) as [[id|e] s1] eqn:En; [|exact Hx].
  assert (Hx1 : OrderOk s1).
  { eapply (OrderOk_frame (fun k => k = KSeq (kind_ns p kd))); [eapply next_seq_only; [exact En|]| |exact Hx].
    - rewrite prop_ns_kind. exists (KSeq (kind_ns p kd)). split; [reflexivity|]. split; [now destruct kd|reflexivity].
    - intros k Hk ->. destruct kd; exact Hk. }
  change (make_id_seq_key (project_ns p ("properties/order/" ++ short_name t))) with (render (osq t)).
  destruct (next_zero_seq (render (osq t)) s1) as [[o|e] s2] eqn:Eo; [|exact Hx]. cbv zeta. destruct (negb _); [exact Hx|]. cbn [snd].
  set (x := mkProperty id kd name d o t b).
  eapply (OrderOk_frame (fun k => in_rec (kind_ns p kd) k /\ match k with KIdx _ _ _ => True | _ => False end \/ match k with KGlobalCol _ _ => True | _ => False end)).
  - apply only_insert; [|apply only_refl].
    rewrite Forall_app. split.
    + unfold prop_keys. constructor; [|constructor; [|constructor]]; cbn.
      * rewrite prop_ns_kind. exists (KIdx (kind_ns p kd) IName name). split; [reflexivity|]. split; [now destruct kd|left; split; [reflexivity|exact Logic.I]].
      * destruct d as [d|]; [|exact Logic.I]. cbn. rewrite prop_ns_kind. exists (KIdx (kind_ns p kd) IDisplayName d).
        split; [reflexivity|]. split; [now destruct kd|left; split; [reflexivity|exact Logic.I]].
    + constructor; [|constructor]. cbn. exists (KGlobalCol p (column_name snake x)). split; [reflexivity|]. split; [reflexivity|now right].
  - intros k Hk [[H1 H2]|H2]; destruct k as [[]| | | | | | | | | | | | | | | | | ]; cbn in *; tauto.
  - rewrite prop_ns_kind. change (make_data_value_key (ns_str (kind_ns p kd)) id) with (render (dk kd id)).
    now apply (OrderOk_new s1 kd id x s2).
Qed.
Definition keeps_type (o : MdOp) : bool :=
  match o with OPropUpdate q _ _ _ (Some _) _ => negb (N.eqb q p) | _ => true end.
Lemma md_step_order snake o s : wf_op o = true -> keeps_type o = true -> OrderOk s -> OrderOk (md_step snake o s).
Proof.
  intros W K Hx.
  assert (F : (forall k, order_keys k -> ~ touches o k) -> OrderOk (md_step snake o s)).
  { intro D. eapply OrderOk_frame; [apply md_frame, W|exact D|exact Hx]. }
  assert (Pk : forall q kd, q <> p -> (forall k, touches o k -> in_props q kd k) -> OrderOk (md_step snake o s)).
  { intros q kd Ne T. apply F. intros k Hk Ht. apply T in Ht. unfold in_props, kind_ns, in_ns in Ht.
    destruct k as [[]| | | | | | | | | | | | | | | | | ]; cbn in *; try tauto; destruct kd; destruct Ht as [Ht|Ht]; try contradiction; try congruence.
    all: injection Ht as -> ->; cbn in Hk; congruence. }
  destruct o; try (apply F; intros k0 Hk Ht; destruct k0 as [[? []|? []|?]| | | | | | | | | | | | | | | | | ]; cbn in *; try tauto;
        unfold in_ns, in_rec in *; cbn in *;
        first [intuition congruence | destruct Ht as [Ht|(x & Ht)]; intuition congruence]).
  all: try (apply F; intros k0 Hk Ht; destruct k0 as [ns ?| | | | | | | | | | | | | | | | | ]; try destruct ns as [|? []|]; cbn in *; try tauto;
        unfold in_ns, in_rec in *; cbn in *;
        first [intuition congruence | destruct Ht as [Ht|(x & Ht)]; intuition congruence]).
  - destruct (N.eq_dec p0 p) as [->|Np]; [|apply (Pk _ k Np); auto]. apply prop_create_order, Hx.
  - destruct (N.eq_dec p0 p) as [->|Np]; [|apply (Pk _ k Np); auto]. cbn [md_step]. unfold prop_get_or_create.
    destruct (prop_by_name p k name s) as [x|[]]; try exact Hx. apply prop_create_order, Hx.
  - destruct (N.eq_dec p0 p) as [->|Np]; [|apply (Pk _ k Np); intros k0; unfold in_props; cbn; intro H; left; destruct k0; cbn in *; tauto].
    cbn [md_step]. unfold prop_update. destruct (prop_by_id p k id s) as [x|e] eqn:Ex; [|exact Hx].
    destruct (check_update _ _ _); [|exact Hx]. cbv zeta. destruct (negb _); [exact Hx|]. cbn [snd].
    assert (Hk : kg (dk k id) s = Some (VRec (RProperty x))).
    { unfold prop_by_id in Ex. rewrite prop_ns_kind in Ex. change (make_data_value_key (ns_str (kind_ns p k)) id) with (render (dk k id)) in Ex.
      unfold kg. destruct (kget (render (dk k id)) s) as [[| |[]]|]; congruence. }
    destruct (oo_rec s Hx _ _ _ Hk) as (y & [= <-] & Hid & Hkd & _).
    cbn in K. destruct t as [t|]; [rewrite N.eqb_refl in K; discriminate|].
    eapply (OrderOk_frame (fun k0 => exists i z, k0 = KIdx (kind_ns p k) i z)).
    + apply only_update; [| |apply only_refl]; (destruct d as [d|]; [|constructor]); (constructor; [|constructor]).
      * destruct d as [d|]; [|exact Logic.I]. cbn. rewrite prop_ns_kind. exists (KIdx (kind_ns p k) IDisplayName d). split; [reflexivity|]. split; [now destruct k|eauto].
      * destruct (pp_display x) as [d'|]; [|exact Logic.I]. cbn. rewrite prop_ns_kind. exists (KIdx (kind_ns p k) IDisplayName d'). split; [reflexivity|]. split; [now destruct k|eauto].
    + intros k0 Hk0 (i & z & ->). exact Hk0.
    + rewrite prop_ns_kind, Hid. change (make_data_value_key (ns_str (kind_ns p k)) id) with (render (dk k id)).
      apply (OrderOk_same s k id x); auto.
  - destruct (N.eq_dec p0 p) as [->|Np]; [|apply (Pk _ k Np); intros k0; unfold in_props; cbn; intro H; left; destruct k0; cbn in *; tauto].
    cbn [md_step]. unfold prop_delete. destruct (prop_by_id p k id s) as [x|e] eqn:Ex; [|exact Hx]. cbn [snd].
    eapply (OrderOk_frame (fun k0 => exists i z, k0 = KIdx (kind_ns p k) i z)).
    + apply only_delete; [|apply only_refl]. unfold prop_keys. constructor; [|constructor; [|constructor]]; cbn.
      * rewrite prop_ns_kind. exists (KIdx (kind_ns p k) IName (pp_name x)). split; [reflexivity|]. split; [now destruct k|eauto].
      * destruct (pp_display x) as [d'|]; [|exact Logic.I]. cbn. rewrite prop_ns_kind. exists (KIdx (kind_ns p k) IDisplayName d'). split; [reflexivity|]. split; [now destruct k|eauto].
    + intros k0 Hk0 (i & z & ->). exact Hk0.
    + rewrite prop_ns_kind. change (make_data_value_key (ns_str (kind_ns p k)) id) with (render (dk k id)). now apply OrderOk_del.
Qed.
Lemma OrderOk_nil : OrderOk [].
Proof. constructor; [discriminate|discriminate|intro; exact Logic.I]. Qed.
Lemma md_run_order snake ops s : forallb wf_op ops = true -> forallb keeps_type ops = true -> OrderOk s -> OrderOk (md_run snake ops s).
Proof.
  unfold md_run. revert s. induction ops as [|o r IH]; cbn [forallb fold_left]; intros s W K Hx; [auto|].
  apply andb_prop in W, K. destruct W, K. auto using md_step_order.
Qed.
End Project.

(** ** C40 *)
(** In histories that never change the data type of a property of the project, two different
    non-system properties of the project (of whatever kinds) have different columns. *)
Theorem C40_columns_distinct_partial :
  forall snake p ops kd id x kd' id' x',
    forallb wf_op ops = true -> forallb (keeps_type p) ops = true ->
    let s := md_run snake ops [] in
    prop_by_id p kd id s = Ok x -> prop_by_id p kd' id' s = Ok x' ->
    pp_system x = false -> pp_system x' = false -> (kd, id) <> (kd', id') ->
    column_name snake x <> column_name snake x'.
Proof.
  intros snake p ops kd id x kd' id' x' W K s Hx Hx' Sx Sx' Ne E.
  assert (Hs : OrderOk p s) by (apply md_run_order; auto using OrderOk_nil).
  assert (G : forall kd id x, prop_by_id p kd id s = Ok x -> kg (KData (kind_ns p kd) id) s = Some (VRec (RProperty x))).
  { intros k i y H. unfold prop_by_id in H. rewrite prop_ns_kind in H.
    change (make_data_value_key (ns_str (kind_ns p k)) i) with (render (KData (kind_ns p k) i)) in H.
    unfold kg. destruct (kget _ s) as [[| |[]]|]; congruence. }
  apply column_inj in E as (_ & Et & Eo); auto.
  destruct (oo_inj p s Hs _ _ _ _ _ _ (G _ _ _ Hx) (G _ _ _ Hx') Et Eo) as [-> ->]. now apply Ne.
Qed.
Print Assumptions C40_columns_distinct_partial.
Example C40_columns_distinct_partial_witness :
  let ops := [OPropCreate 1 KEvent "City" None (PBase TString) false; OPropCreate 1 (KGroup 0) "City" None (PBase TString) false;
              OPropGetOrCreate 1 KEvent "Price" None (PBase TDecimal) false; OPropUpdate 1 KEvent 1 (Some (Some "Town")) None None] in
  let s := md_run (fun x => x) ops [] in
  forallb (keeps_type 1) ops = true /\
  prop_by_id 1 KEvent 1 s = Ok (mkProperty 1 KEvent "City" (Some "Town") 0 (PBase TString) false) /\
  prop_by_id 1 (KGroup 0) 1 s = Ok (mkProperty 1 (KGroup 0) "City" None 1 (PBase TString) false) /\
  column_name (fun x => x) (mkProperty 1 (KGroup 0) "City" None 1 (PBase TString) false) = "g_0_str_1".
Proof. vm_compute. repeat split. Qed.


(** Two system properties of one name, one of the events and one of a group, share a column. *)
Theorem C40_system_columns_refuted :
  forall snake p g name d d' t t' s x x',
    fst (prop_create snake p KEvent name d t true s) = Ok x ->
    fst (prop_create snake p (KGroup g) name d' t' true (snd (prop_create snake p KEvent name d t true s))) = Ok x' ->
    column_name snake x = column_name snake x'.
Proof.
  assert (H : forall snake p k name d t s x, fst (prop_create snake p k name d t true s) = Ok x -> pp_system x = true /\ pp_name x = name).
  { intros snake p k name d t s x. unfold prop_create. destruct (check_insert _ _); [|discriminate].
    destruct (next_seq _ _) as [[id|] s1]; [|discriminate]. destruct (next_zero_seq _ _) as [[o|] s2]; [|discriminate].
    cbv zeta. destruct (negb _); [discriminate|]. cbn. intros [= <-]. auto. }
  intros snake p g name d d' t t' s x x' H1 H2. apply H in H1 as [A B], H2 as [C D]. unfold column_name. now rewrite A, B, C, D.
Qed.
Print Assumptions C40_system_columns_refuted.
Example C40_system_columns_refuted_witness :
  let s := snd (prop_create (fun x => x) 1 KEvent "Name" None (PBase TString) true []) in
  fst (prop_create (fun x => x) 1 KEvent "Name" None (PBase TString) true []) = Ok (mkProperty 1 KEvent "Name" None 0 (PBase TString) true) /\
  fst (prop_create (fun x => x) 1 (KGroup 0) "Name" None (PBase TInt64) true s) = Ok (mkProperty 1 (KGroup 0) "Name" None 0 (PBase TInt64) true).
Proof. vm_compute. split; reflexivity. Qed.

(** Changing the data type of a property gives it the column of any property of its kind
    with that type and the same order number. *)
Theorem C40_type_change_refuted :
  forall snake p kd id id' x y y' s,
    prop_by_id p kd id s = Ok x -> prop_by_id p kd id' s = Ok y -> pp_kind x = kd -> pp_kind y = kd ->
    pp_system x = false -> pp_system y = false -> pp_order x = pp_order y ->
    fst (prop_update p kd id' None (Some (pp_type x)) None s) = Ok y' ->
    column_name snake x = column_name snake y'.
Proof.
  intros snake p kd id id' x y y' s Hx Hy Kx Ky Sx Sy Eo. unfold prop_update. rewrite Hy. cbn [check_update].
  destruct (check_update _ _ _); [|discriminate]. cbv zeta. destruct (negb _); [discriminate|]. cbn [fst]. intros [= <-]. unfold column_name. cbn. now rewrite Sx, Sy, Eo, Kx, Ky.
Qed.
Print Assumptions C40_type_change_refuted.
Example C40_type_change_refuted_witness :
  let s := md_run (fun x => x) [OPropCreate 1 KEvent "A" None (PBase TString) false; OPropCreate 1 KEvent "B" None (PBase TInt64) false] [] in
  let r := prop_update 1 KEvent 2 None (Some (PBase TString)) None s in
  fst r = Ok (mkProperty 2 KEvent "B" None 0 (PBase TString) false) /\
  prop_by_id 1 KEvent 1 (snd r) = Ok (mkProperty 1 KEvent "A" None 0 (PBase TString) false).
Proof. vm_compute. split; reflexivity. Qed.
