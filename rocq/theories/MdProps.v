(** Every metadata call keeps the properties of every kind consistent with their index entries. *)
From Coq Require Import List NArith ZArith String Ascii Bool Lia.
From Verif Require Import AMap Kv KvKeys KvKeysFacts KvFacts Md MdOps MdFrame MdIndex MdEntities PropsNames.
Import ListNotations.
Local Open Scope string_scope.

Lemma Indexed_ext ns kf (s s' : Store) : (forall k, wf_key k = true -> in_ns ns k -> kg k s' = kg k s) -> Indexed ns kf s -> Indexed ns kf s'.
Proof.
  intros E [H1 H2 H3].
  assert (ED : forall id, kg (KData ns id) s' = kg (KData ns id) s) by (intro; apply E; reflexivity).
  assert (EI : forall ik, kg (kidx ns ik) s' = kg (kidx ns ik) s) by (intro; apply E; reflexivity).
  assert (ES : kg (KSeq ns) s' = kg (KSeq ns) s) by (apply E; reflexivity).
  constructor.
  - intros id v H. rewrite ED in H. destruct (H1 id v H) as (r & ks & -> & Hk & Hi). exists r, ks. repeat split; auto.
    intros ik Hin. rewrite EI. auto.
  - intros ik v H. rewrite EI in H. destruct (H2 ik v H) as (id & r & ks & -> & Hd & Hk & Hi). exists id, r, ks.
    rewrite ED. auto.
  - rewrite ES. destruct (kg (KSeq ns) s) as [[m| |]|]; auto.
    + destruct H3 as [Hm H3]. split; [exact Hm|]. intros id. rewrite ED. auto.
    + intro id. rewrite ED. auto.
Qed.
Lemma insert_index_snoc (s : Store) l k id : insert_index s (l ++ [Some k]) id = kput k (VNum id) (insert_index s l id).
Proof.
  unfold insert_index. assert (F : flat (l ++ [Some k])%list = (flat l ++ [k])%list).
  { unfold flat. rewrite map_app, concat_app. reflexivity. }
  rewrite F, fold_left_app. reflexivity.
Qed.
Lemma prop_okeys p kd name d : prop_keys p kd name d = okeys (kind_ns p kd) [Some (IName, name); option_map (pair IDisplayName) d].
Proof. destruct d, kd; reflexivity. Qed.
Lemma prop_data_key p kd id : make_data_value_key (prop_ns p kd) id = render (KData (kind_ns p kd) id).
Proof. now destruct kd. Qed.
Lemma prop_by_id_spec p kd id s x : prop_by_id p kd id s = Ok x <-> kg (KData (kind_ns p kd) id) s = Some (VRec (RProperty x)).
Proof.
  unfold prop_by_id, kg. rewrite prop_data_key. destruct (kget _ s) as [[| |[]]|]; split; congruence.
Qed.
Lemma kind_eqb a b : (match a, b with KEvent, KEvent => true | KGroup x, KGroup y => N.eqb x y | _, _ => false end) = true <-> a = b.
Proof. destruct a, b; try (split; congruence). rewrite N.eqb_eq. split; congruence. Qed.
Lemma prop_iks_self x : prop_iks (pp_kind x) (RProperty x) = Some (pp_id x, [Some (IName, pp_name x); option_map (pair IDisplayName) (pp_display x)]).
Proof. cbn. destruct (pp_kind x); [reflexivity|]. now rewrite N.eqb_refl. Qed.
Lemma prop_by_id_ok p kd id s x : PropsOk p kd s -> prop_by_id p kd id s = Ok x -> pp_id x = id /\ pp_kind x = kd.
Proof.
  intros Hx H. apply prop_by_id_spec in H. destruct (ix_data _ _ _ Hx _ _ H) as (r & ks & [= <-] & Hk & _).
  cbn in Hk. destruct (match pp_kind x, kd with KEvent, KEvent => true | KGroup a, KGroup b => N.eqb a b | _, _ => false end) eqn:E; [|discriminate].
  apply kind_eqb in E. injection Hk as -> _. auto.
Qed.
Lemma prop_create_ok snake p kd name d t sys s : PropsOk p kd s -> PropsOk p kd (snd (prop_create snake p kd name d t sys s)).
Proof.
  intro Hx. unfold prop_create. destruct (check_insert s (prop_keys p kd name d)) eqn:Hc; [|exact Hx]. rewrite prop_okeys in *.
  replace (make_id_seq_key (prop_ns p kd)) with (render (KSeq (kind_ns p kd))) by now destruct kd.
  destruct (next_seq (render (KSeq (kind_ns p kd))) s) as [[id|e] s1] eqn:En; [|exact Hx].
  destruct (next_zero_seq _ s1) as [[order|e] s2] eqn:Eo; [|exact Hx]. cbv zeta. destruct (negb _); [exact Hx|]. cbn [snd]. rewrite insert_index_snoc, prop_data_key.
  set (x := mkProperty id kd name d order t sys).
  pose proof (Indexed_create (kind_ns p kd) (prop_iks kd) s id (RProperty x) _ s1 Hx (prop_iks_self x) Hc En) as H.
  revert H. apply Indexed_ext. intros k W Hk. change (pp_name x) with name. change (pp_display x) with d.
  change (make_index_key (project_ns p "global") "column_name" (column_name snake x)) with (render (KGlobalCol p (column_name snake x))).
  assert (Hn : forall c, k <> KGlobalCol p c) by (intros c E; subst k; destruct kd; cbn in Hk; tauto).
  assert (Ho : kg k s2 = kg k s1).
  { unfold next_zero_seq, next_from in Eo. change (make_id_seq_key (project_ns p ("properties/order/" ++ short_name t))) with (render (KOrderSeq p (short_name t))) in Eo.
    assert (K : forall m, kg k (kput (render (KOrderSeq p (short_name t))) (VNum m) s1) = kg k s1).
    { intro m. apply kg_put_ne; [exact W|now destruct t as [[]|[]]|]. intros ->. destruct kd; cbn in Hk; tauto. }
    destruct (kget _ s1) as [v|]; [destruct (read_num v)|]; injection Eo as _ <-; apply K || reflexivity. }
  assert (Wg : wf_key (KGlobalCol p (column_name snake x)) = true) by reflexivity.
  rewrite kg_put_ne; [|exact W|exact Wg|apply Hn].
  set (l := [Some (IName, name); option_map (pair IDisplayName) d]).
  assert (Cs : (exists ik, In ik (iks l) /\ k = kidx (kind_ns p kd) ik) \/ (forall ik, In ik (iks l) -> k <> kidx (kind_ns p kd) ik)).
  { induction (iks l) as [|y r IH]; [right; now intros ? []|]. destruct (key_dec k (kidx (kind_ns p kd) y)) as [E|Ne].
    - left. exists y. split; [now left|exact E].
    - destruct IH as [(ik & Hi & E)|H]; [left; exists ik; split; [now right|exact E]|right]. intros ik [<-|Hi]; auto. }
  destruct Cs as [(ik & Hi & ->)|No].
  - now rewrite !kg_insert_in by exact Hi.
  - rewrite !kg_insert_out by auto. destruct (key_dec k (KData (kind_ns p kd) id)) as [->|Ne]; [now rewrite !kg_put_eq|].
    rewrite !kg_put_ne; auto; now destruct kd.
Qed.
Lemma prop_get_or_create_ok snake p kd name d t sys s : PropsOk p kd s -> PropsOk p kd (snd (prop_get_or_create snake p kd name d t sys s)).
Proof.
  intro Hx. unfold prop_get_or_create. destruct (prop_by_name p kd name s) as [|[]]; try exact Hx. now apply prop_create_ok.
Qed.
Lemma prop_update_ok p kd id d t sys s : PropsOk p kd s -> PropsOk p kd (snd (prop_update p kd id d t sys s)).
Proof.
  intro Hx. unfold prop_update. destruct (prop_by_id p kd id s) as [prev|] eqn:Hb; [|exact Hx].
  destruct (prop_by_id_ok _ _ _ _ _ Hx Hb) as [Hid Hk]. apply prop_by_id_spec in Hb. cbv zeta.
  set (ksm := match d with Some x => [option_map (pair IDisplayName) x] | None => [] end).
  set (pkm := match d with Some _ => [option_map (pair IDisplayName) (pp_display prev)] | None => [] end).
  set (kept := (Some (IName, pp_name prev) :: match d with Some _ => [] | None => [option_map (pair IDisplayName) (pp_display prev)] end)).
  replace (match d with Some x => [option_map (make_index_key (prop_ns p kd) "display_name") x] | None => [] end)
    with (okeys (kind_ns p kd) ksm) by (destruct d as [[]|], kd; reflexivity).
  replace (match d with Some _ => [option_map (make_index_key (prop_ns p kd) "display_name") (pp_display prev)] | None => [] end)
    with (okeys (kind_ns p kd) pkm) by (unfold pkm; destruct d as [[]|], (pp_display prev), kd; reflexivity).
  destruct (check_update _ _ _) eqn:Hc; [|exact Hx]. destruct (negb _); [exact Hx|]. cbn [snd]. rewrite prop_data_key, Hid.
  eapply (Indexed_update (kind_ns p kd) (prop_iks kd) s id (RProperty prev) _ ksm pkm kept); try exact Hc; auto.
  - rewrite <- Hid, <- Hk. apply prop_iks_self.
  - cbn. rewrite Hk. destruct kd; [reflexivity|]. rewrite N.eqb_refl. reflexivity.
  - unfold ksm, pkm. now destruct d.
  - intros i j x. unfold ksm, pkm. destruct d as [[]|], (pp_display prev); destruct i as [|[|i]], j as [|[|j]]; cbn; congruence.
  - intro x. unfold pkm, kept. rewrite !iks_in. destruct d; cbn; tauto.
  - intro x. unfold ksm, kept. rewrite !iks_in. destruct d; cbn; tauto.
  - intro x. unfold pkm, kept. rewrite !iks_in. destruct d, (pp_display prev); cbn; intuition congruence.
Qed.
Lemma prop_delete_ok p kd id s : PropsOk p kd s -> PropsOk p kd (snd (prop_delete p kd id s)).
Proof.
  intro Hx. unfold prop_delete. destruct (prop_by_id p kd id s) as [prev|] eqn:Hb; [|exact Hx].
  destruct (prop_by_id_ok _ _ _ _ _ Hx Hb) as [Hid Hk]. apply prop_by_id_spec in Hb. cbn [snd]. rewrite prop_okeys, prop_data_key.
  apply (Indexed_delete (kind_ns p kd) (prop_iks kd) s id (RProperty prev)); auto. rewrite <- Hid, <- Hk. apply prop_iks_self.
Qed.
Lemma kind_dec (p q : N) (a b : PropKind) : {p = q /\ a = b} + {~ (p = q /\ a = b)}.
Proof.
  assert (D : {(p, a) = (q, b)} + {(p, a) <> (q, b)}) by repeat decide equality.
  destruct D as [[= -> ->]|D]; [left; auto|right; intros [-> ->]; auto].
Qed.
Lemma md_step_props snake p kd o s : wf_op o = true -> PropsOk p kd s -> PropsOk p kd (md_step snake o s).
Proof.
  intros W Hx.
  assert (F : (forall k, in_ns (kind_ns p kd) k -> ~ touches o k) -> PropsOk p kd (md_step snake o s)).
  { intro D. now apply frame_op. }
  assert (Fp : forall q k (P : Key -> Prop), ~ (q = p /\ k = kd) -> (forall x, P x -> in_props q k x) -> (forall x, touches o x -> P x) ->
     PropsOk p kd (md_step snake o s)).
  { intros q k P Ne HP HT. apply F. intros x Hx' Ht. apply HT, HP in Ht. apply Ne.
    destruct x; cbn in Hx', Ht; unfold in_props in Ht; cbn in Ht; destruct Ht as [Ht|Ht]; try tauto; rewrite Hx' in Ht; destruct kd, k; cbn in Ht; injection Ht; intros; subst; auto; discriminate. }
  assert (Rp : forall q k x, in_rec (kind_ns q k) x -> in_props q k x) by (intros q k x Hr; left; destruct x; cbn in *; tauto).
  destruct o; try (apply F; intros k0 Hk Ht; destruct kd, k0; cbn in *; try tauto; subst; unfold kind_ns in *; cbn in *;
     repeat (destruct Ht as [Ht|Ht]); first [congruence|tauto|destruct Ht; congruence]).
  - destruct (kind_dec p0 p k kd) as [[-> ->]|Ne]; [now apply prop_create_ok|eapply Fp; eauto].
  - destruct (kind_dec p0 p k kd) as [[-> ->]|Ne]; [now apply prop_get_or_create_ok|eapply Fp; eauto].
  - destruct (kind_dec p0 p k kd) as [[-> ->]|Ne]; [now apply prop_update_ok|eapply Fp; eauto].
  - destruct (kind_dec p0 p k kd) as [[-> ->]|Ne]; [now apply prop_delete_ok|eapply Fp; eauto].
Qed.
Lemma props_run snake p kd ops s : forallb wf_op ops = true -> PropsOk p kd s -> PropsOk p kd (md_run snake ops s).
Proof. intros W H. apply (md_run_inv (fun s => PropsOk p kd s)); auto. intros. now apply md_step_props. Qed.
Lemma props_reach snake p kd ops : forallb wf_op ops = true -> PropsOk p kd (md_run snake ops []).
Proof. intro W. apply props_run; auto using Indexed_nil. Qed.

Lemma prop_by_name_iff p kd s n x : PropsOk p kd s ->
  prop_by_name p kd n s = Ok x <-> exists id, prop_by_id p kd id s = Ok x /\ pp_name x = n.
Proof.
  intro Hx. unfold prop_by_name.
  replace (make_index_key (prop_ns p kd) "name" n) with (render (kidx (kind_ns p kd) (IName, n))) by now destruct kd.
  pose proof (get_index_ix _ _ s IName n Hx) as G. split.
  - destruct (get_index s _) as [id|e]; [|discriminate]. intro H. exists id. split; [exact H|].
    destruct (prop_by_id_ok _ _ _ _ _ Hx H) as [Ei Ek].
    destruct (ix_idx _ _ _ Hx _ _ G) as (id' & r & ks & [= <-] & Hd & Hk & Hi).
    apply prop_by_id_spec in H. rewrite Hd in H. injection H as ->. rewrite <- Ek, prop_iks_self in Hk. injection Hk as _ <-.
    apply iks_in in Hi. cbn in Hi. destruct Hi as [[= E]|[Hi|[]]]; [exact E|]. destruct (pp_display x); discriminate Hi.
  - intros (id & H & <-). pose proof H as H0. destruct (prop_by_id_ok _ _ _ _ _ Hx H) as [Ei Ek]. apply prop_by_id_spec in H.
    destruct (ix_data _ _ _ Hx _ _ H) as (r & ks & [= <-] & Hk & Hi). rewrite <- Ek, prop_iks_self in Hk. injection Hk as _ <-.
    specialize (Hi (IName, pp_name x)). destruct (get_index s _) as [id'|e].
    + rewrite G in Hi. assert (Some (VNum id') = Some (VNum (A:=Rec) id)) as [= ->] by (apply Hi; cbn; auto). exact H0.
    + destruct G as [_ G]. rewrite G in Hi. discriminate Hi. cbn; auto.
Qed.
(** What [prop_get_or_create] returns is stored, under its own number and the given name. *)
Lemma prop_get_or_create_spec snake p kd name d t sys s x s' : PropsOk p kd s ->
  prop_get_or_create snake p kd name d t sys s = (Ok x, s') ->
  prop_by_id p kd (pp_id x) s' = Ok x /\ pp_name x = name /\ pp_kind x = kd.
Proof.
  intros Hx. unfold prop_get_or_create. destruct (prop_by_name p kd name s) as [y|e] eqn:E.
  - intros [= -> <-]. apply prop_by_name_iff in E as (id & E & En); [|exact Hx].
    destruct (prop_by_id_ok _ _ _ _ _ Hx E) as [<- Ek]. auto.
  - destruct e; try discriminate. unfold prop_create. destruct (check_insert _ _); [|discriminate].
    destruct (next_seq _ s) as [[id|e] s1] eqn:En; [|discriminate]. destruct (next_zero_seq _ s1) as [[o|e] s2]; [|discriminate].
    cbv zeta. destruct (negb _); [discriminate|]. intro H. assert (Ex : x = mkProperty id kd name d o t sys) by (apply (f_equal fst) in H; cbn [fst] in H; congruence).
    apply (f_equal snd) in H. cbn [snd] in H. subst s' x. cbn [pp_id pp_name pp_kind]. split; [|auto]. apply prop_by_id_spec. rewrite insert_index_snoc, prop_data_key.
    change (make_index_key (project_ns p "global") "column_name" (column_name snake (mkProperty id kd name d o t sys)))
      with (render (KGlobalCol p (column_name snake (mkProperty id kd name d o t sys)))).
    rewrite kg_put_ne; [|now destruct kd|reflexivity|destruct kd; discriminate].
    rewrite prop_okeys, kg_insert_out; [apply kg_put_eq|now destruct kd|intros; destruct kd; discriminate].
Qed.
