(** C141: requests about the properties of a project. *)
From Coq Require Import List NArith ZArith String Bool Lia.
From Verif Require Import AMap Kv KvKeys KvKeysFacts KvFacts Md MdOps MdFrame MdIndex MdEntities MdWf MdProps PropsNames
  Access Auth AuthSpec AuthFacts AuthStatus AuthStatusSpec AuthStatusFacts PropsAuth PropsAccess PropsBoardCalls PropCalls PropCallsSpec.
Import ListNotations.
Local Open Scope N_scope.

Notation DataKey p k i := (KData (kind_ns p k) i).
Lemma data_wf p k i : wf_key (DataKey p k i) = true.
Proof. now destruct k. Qed.
Lemma data_inj p k i q l j : DataKey p k i = DataKey q l j -> p = q /\ k = l /\ i = j.
Proof. destruct k, l; cbn; intros [=]; subst; auto. Qed.
(** A request whose kind of properties there is, not by number for a kind of groups. *)
Definition plain (k : Ask) : Prop := of_group (kind_of k) /\ ~ group_by_number k.
Lemma plain_handled k : plain k -> handled k = k /\ group_there k = true.
Proof.
  intros (O & N). split.
  - destruct k as [p [|g] i|p k n|p k|p k i d|p k i]; try reflexivity. exfalso. apply N. do 3 eexists. reflexivity.
  - unfold group_there. destruct (kind_of k) as [|g]; [reflexivity|]. now apply N.ltb_lt.
Qed.

(** ** Whatever is stored of a property can be stored *)
Definition Sto (s : Md.Store) : Prop := forall p k i x, kg (DataKey p k i) s = Some (VRec (RProperty x)) -> storable (pp_type x) = true.
Definition grows (s s' : Md.Store) : Prop := forall p k i x, kg (DataKey p k i) s' = Some (VRec (RProperty x)) ->
  kg (DataKey p k i) s = Some (VRec (RProperty x)) \/ storable (pp_type x) = true.
Lemma grows_refl s : grows s s. Proof. left. assumption. Qed.
Lemma grows_trans a b c : grows a b -> grows b c -> grows a c.
Proof. intros H1 H2 p k i x H. apply H2 in H as [H|H]; auto. Qed.
Lemma grows_same s s' : (forall p k i, kg (DataKey p k i) s' = kg (DataKey p k i) s) -> grows s s'.
Proof. intros E p k i x H. rewrite E in H. auto. Qed.
Lemma grows_put p k i x s : storable (pp_type x) = true -> grows s (kput (render (DataKey p k i)) (VRec (RProperty x)) s).
Proof.
  intros S q l j y H. destruct (MdFrame.key_dec (DataKey q l j) (DataKey p k i)) as [E|E].
  - rewrite E, kg_put_eq in H. injection H as <-. auto.
  - rewrite kg_put_ne in H by auto using data_wf. auto.
Qed.
Lemma grows_num k0 n s : wf_key k0 = true -> (forall p k i, DataKey p k i <> k0) -> grows s (kput (render k0) (VNum n) s).
Proof. intros W N. apply grows_same. intros. apply kg_put_ne; auto using data_wf. Qed.
Lemma grows_next f k0 s r s' : next_from f (render k0) s = (r, s') -> wf_key k0 = true -> (forall p k i, DataKey p k i <> k0) -> grows s s'.
Proof.
  unfold next_from. intros E W N. destruct (kget _ s) as [v|]; [destruct (read_num v)|]; injection E as _ <-; auto using grows_refl, grows_num.
Qed.
Lemma create_grows snake p k n d t b s : grows s (snd (prop_create snake p k n d t b s)).
Proof.
  unfold prop_create. destruct (check_insert _ _); [|apply grows_refl]. rewrite prop_okeys.
  replace (make_id_seq_key (prop_ns p k)) with (render (KSeq (kind_ns p k))) by now destruct k.
  destruct (next_seq _ s) as [[i|e] s1] eqn:E1; [|apply grows_refl].
  change (make_id_seq_key (project_ns p ("properties/order/" ++ short_name t))) with (render (KOrderSeq p (short_name t))).
  destruct (next_zero_seq _ s1) as [[o|e] s2] eqn:E2; [|apply grows_refl]. cbv zeta. destruct (storable t) eqn:S; [|apply grows_refl]. cbn [negb snd].
  rewrite insert_index_snoc, prop_data_key. set (x := mkProperty i k n d o t b).
  change (make_index_key (project_ns p "global") "column_name" (column_name snake x)) with (render (KGlobalCol p (column_name snake x))).
  eapply grows_trans; [|apply grows_num; [reflexivity|discriminate]].
  eapply grows_trans; [|apply grows_same; intros; apply kg_insert_out; [apply data_wf|intros; discriminate]].
  eapply grows_trans; [|apply grows_put; exact S].
  eapply grows_trans; [eapply (grows_next _ _ _ _ _ E1); [now destruct k|discriminate]|].
  eapply (grows_next _ _ _ _ _ E2); [now destruct t as [[]|[]]|discriminate].
Qed.
Lemma update_eq p k i d t b s : prop_update p k i d t b s =
  match prop_by_id p k i s with
  | Err x => (Err x, s)
  | Ok prev =>
    let ks := match d with Some x => [option_map (pair IDisplayName) x] | None => [] end in
    let pk := match d with Some _ => [option_map (pair IDisplayName) (pp_display prev)] | None => [] end in
    if check_update s (okeys (kind_ns p k) ks) (okeys (kind_ns p k) pk) then
      let x := mkProperty (pp_id prev) (pp_kind prev) (pp_name prev) (match d with Some x => x | None => pp_display prev end) (pp_order prev)
                 (match t with Some t => t | None => pp_type prev end) (match b with Some b => b | None => pp_system prev end) in
      if negb (storable (pp_type x)) then (Err Panicked, s) else
      (Ok x, update_index (kput (render (DataKey p k (pp_id prev))) (VRec (RProperty x)) s) (okeys (kind_ns p k) ks) (okeys (kind_ns p k) pk) i)
    else (Err AlreadyExists, s)
  end.
Proof.
  unfold prop_update. destruct (prop_by_id p k i s) as [prev|]; [|reflexivity]. cbv zeta. rewrite prop_data_key.
  destruct d as [y|]; [|reflexivity].
  assert (OK : forall y, [option_map (make_index_key (prop_ns p k) "display_name") y] = okeys (kind_ns p k) [option_map (pair IDisplayName) y]) by (intros []; destruct k; reflexivity).
  rewrite !OK. reflexivity.
Qed.
Lemma update_out p k d prev s q l j i : kg (DataKey q l j) (update_index s
    (okeys (kind_ns p k) (match d with Some x => [option_map (pair IDisplayName) x] | None => [] end))
    (okeys (kind_ns p k) (match d with Some _ => [option_map (pair IDisplayName) (pp_display prev)] | None => [] end)) i) = kg (DataKey q l j) s.
Proof. apply kg_update_out; [apply data_wf|now destruct d|intros; discriminate|intros; discriminate]. Qed.
Lemma update_grows p k i d t b s : grows s (snd (prop_update p k i d t b s)).
Proof.
  rewrite update_eq. destruct (prop_by_id p k i s) as [prev|]; [|apply grows_refl]. cbv zeta.
  destruct (check_update _ _ _); [|apply grows_refl]. destruct (storable _) eqn:S; [|apply grows_refl]. cbn [negb snd].
  eapply grows_trans; [apply grows_put; exact S|]. apply grows_same. intros. apply update_out.
Qed.
Lemma delete_grows p k i s : grows s (snd (prop_delete p k i s)).
Proof.
  unfold prop_delete. destruct (prop_by_id p k i s) as [prev|]; [|apply grows_refl]. cbn [snd]. rewrite prop_okeys, prop_data_key.
  intros q l j x H. rewrite kg_delete_out in H; [|apply data_wf|intros; discriminate].
  destruct (MdFrame.key_dec (DataKey q l j) (DataKey p k i)) as [E|E]; [rewrite E, kg_del_eq in H; discriminate|]. rewrite kg_del_ne in H; auto using data_wf.
Qed.
Lemma step_grows snake o s : wf_op o = true -> grows s (md_step snake o s).
Proof.
  intros W. pose proof (md_frame snake o s W) as F.
  destruct o; try (apply grows_same; intros pp kk ii; apply (only_kg _ _ _ _ F); [apply data_wf|];
    intros Ht; destruct kk; cbn in Ht; unfold kind_ns in Ht; cbn in Ht; repeat (destruct Ht as [Ht|Ht]); first [congruence|tauto|destruct Ht; congruence]); cbn [md_step].
  - apply create_grows.
  - unfold prop_get_or_create. destruct (prop_by_name _ _ _ s) as [|[]]; try apply grows_refl. apply create_grows.
  - apply update_grows.
  - apply delete_grows.
Qed.
Lemma run_sto snake ops s : forallb wf_op ops = true -> Sto s -> Sto (md_run snake ops s).
Proof.
  unfold md_run. revert s. induction ops as [|o ops IH]; cbn [forallb fold_left]; intros s W S; [exact S|]. apply andb_prop in W as (W1 & W2).
  apply IH; [exact W2|]. intros p k i x H. apply (step_grows snake o s W1) in H as [H|H]; eauto.
Qed.

(** ** The properties of a store *)
Lemma is_prop_kg s p k i x : is_prop s p k i x <-> kg (DataKey p k i) s = Some (VRec (RProperty x)).
Proof. apply prop_by_id_spec. Qed.
Lemma no_prop_kg s p k i : PropsOk p k s -> no_prop s p k i <-> kg (DataKey p k i) s = None.
Proof.
  intros I. split.
  - intros H. destruct (kg (DataKey p k i) s) as [v|] eqn:E; [|reflexivity].
    destruct (ix_data _ _ _ I _ _ E) as (r & ks & -> & K & _). destruct r; try discriminate. exfalso. eapply H. apply is_prop_kg. exact E.
  - intros E x H. apply is_prop_kg in H. congruence.
Qed.
Lemma read_cases s p k i : PropsOk p k s ->
  (prop_by_id p k i s = Err NotFound /\ no_prop s p k i) \/
  (exists x, prop_by_id p k i s = Ok x /\ pp_id x = i /\ pp_kind x = k /\ is_prop s p k i x /\ ~ no_prop s p k i).
Proof.
  intros I. destruct (prop_by_id p k i s) as [x|e] eqn:E.
  - right. exists x. destruct (prop_by_id_ok _ _ _ _ _ I E) as (Ei & Ek). split; [reflexivity|]. split; [exact Ei|]. split; [exact Ek|]. split; [exact E|]. intros N. eapply N. exact E.
  - left. assert (N : no_prop s p k i) by (intros x H; unfold is_prop in H; congruence). split; [|exact N].
    apply no_prop_kg in N; [|exact I]. unfold prop_by_id in E. rewrite prop_data_key in E. unfold kg in N. rewrite N in E. congruence.
Qed.
Lemma prop_ix s p k i x : PropsOk p k s -> kg (DataKey p k i) s = Some (VRec (RProperty x)) ->
  prop_iks k (RProperty x) = Some (i, [Some (IName, pp_name x); option_map (pair IDisplayName) (pp_display x)]).
Proof. intros I D. apply prop_by_id_spec in D. destruct (prop_by_id_ok _ _ _ _ _ I D) as (<- & <-). apply prop_iks_self. Qed.
Lemma name_read s p k n : PropsOk p k s ->
  (prop_by_name p k n s = Err NotFound /\ missing s (PrByName p k n)) \/
  (exists x, prop_by_name p k n s = Ok x /\ is_prop s p k (pp_id x) x /\ pp_name x = n).
Proof.
  intros I. destruct (prop_by_name p k n s) as [x|e] eqn:E.
  - right. exists x. apply prop_by_name_iff in E as (i & E & En); [|exact I]. destruct (prop_by_id_ok _ _ _ _ _ I E) as (<- & _). auto.
  - left. assert (M : missing s (PrByName p k n)).
    { intros i x H En. assert (prop_by_name p k n s = Ok x) by (apply prop_by_name_iff; [exact I|]; eauto). congruence. }
    split; [|exact M]. unfold prop_by_name in E.
    replace (make_index_key (prop_ns p k) "name" n) with (render (kidx (kind_ns p k) (IName, n))) in E by now destruct k.
    pose proof (get_index_ix _ _ s IName n I) as X. destruct (get_index _ _) as [j|x]; [|destruct X as (-> & _); congruence].
    destruct (ix_idx _ _ _ I _ _ X) as (j' & r & ks & [= <-] & Hd & Hk & _). destruct r; try discriminate. apply prop_by_id_spec in Hd. congruence.
Qed.
Lemma update_taken s p k i o d : PropsOk p k s -> prop_by_id p k i s = Ok o ->
  check_update s (okeys (kind_ns p k) (match d with Some x => [option_map (pair IDisplayName) x] | None => [] end))
    (okeys (kind_ns p k) (match d with Some _ => [option_map (pair IDisplayName) (pp_display o)] | None => [] end)) = false
  <-> taken s (PrUpdate p k i d).
Proof.
  intros I E. assert (There : ~ no_prop s p k i) by (intros N; eapply N; exact E).
  assert (D : kg (DataKey p k i) s = Some (VRec (RProperty o))) by now apply prop_by_id_spec.
  destruct d as [[x|]|]; cbn [taken].
  2:{ split; [|contradiction]. intros C. exfalso. revert C. apply not_false_iff_true. apply check_update_spec. intros [|[|j]] a b; cbn; discriminate. }
  2:{ split; [discriminate|contradiction]. }
  set (c := check_update _ _ _).
  assert (S : c = true <-> pp_display o = Some x \/ kg (kidx (kind_ns p k) (IDisplayName, x)) s = None).
  { unfold c. rewrite check_update_spec. cbn. split.
    - intros H. destruct (H 0%nat (IDisplayName, x) _ eq_refl eq_refl) as [H1|H1]; [left|now right].
      destruct (pp_display o); [|discriminate]. now injection H1 as ->.
    - intros H [|[|j]] a b; cbn; try discriminate. intros [= <-] [= <-]. destruct H as [->|H]; auto. }
  clearbody c. split.
  - intros ->. split; [exact There|].
    assert (N1 : pp_display o <> Some x) by (intros H; assert (false = true) by (apply S; now left); discriminate).
    destruct (kg (kidx (kind_ns p k) (IDisplayName, x)) s) as [v|] eqn:Ev; [|assert (false = true) by (apply S; now right); discriminate].
    destruct (ix_idx _ _ _ I _ _ Ev) as (j & r & ks & -> & D' & K & Hin). assert (R : exists y, r = RProperty y) by (destruct r; try discriminate; eauto). destruct R as (y & ->).
    rewrite (prop_ix _ _ _ _ _ I D') in K. injection K as <-. apply iks_in in Hin. cbn in Hin. destruct Hin as [Hin|[Hin|[]]]; [discriminate|].
    destruct (pp_display y) as [z|] eqn:Ez; [|discriminate]. injection Hin as ->.
    exists j, y. split; [|split; [now apply is_prop_kg|exact Ez]]. intros ->. rewrite D in D'. injection D' as <-. contradiction.
  - intros (_ & j & y & Ne & H & Ey). apply is_prop_kg in H as D'. destruct c; [|reflexivity]. exfalso. destruct S as [S _].
    assert (Hj : In (IDisplayName, x) (iks [Some (IName, pp_name y); option_map (pair IDisplayName) (pp_display y)])) by (apply iks_in; rewrite Ey; cbn; auto).
    destruct (S eq_refl) as [Q|Q].
    + apply Ne. symmetry. eapply (Indexed_unique (kind_ns p k) (prop_iks k) s i j (RProperty o) (RProperty y) _ _ (IDisplayName, x)); eauto using prop_ix.
      apply iks_in. rewrite Q. cbn. auto.
    + destruct (ix_data _ _ _ I _ _ D') as (r & ks & [= <-] & K & All). rewrite (prop_ix _ _ _ _ _ I D') in K. injection K as <-. specialize (All _ Hj). congruence.
Qed.
Lemma update_cases' s p k i d : PropsOk p k s -> Sto s ->
  (no_prop s p k i /\ prop_update p k i d None None s = (Err NotFound, s)) \/
  (taken s (PrUpdate p k i d) /\ prop_update p k i d None None s = (Err AlreadyExists, s)) \/
  (~ no_prop s p k i /\ ~ taken s (PrUpdate p k i d) /\ exists o s', is_prop s p k i o /\ prop_update p k i d None None s = (Ok (displayed o d), s')
     /\ is_prop s' p k i (displayed o d) /\ forall q l j, (q, l, j) <> (p, k, i) -> kg (DataKey q l j) s' = kg (DataKey q l j) s).
Proof.
  intros I St. rewrite update_eq. destruct (read_cases s p k i I) as [(E & N)|(o & E & Ei & Ek & H & N)]; rewrite E; [left; auto|right].
  pose proof (update_taken s p k i o d I E) as X. cbv zeta. destruct (check_update _ _ _) eqn:C.
  2:{ left. split; [now apply X|reflexivity]. }
  right. cbn [pp_type]. apply is_prop_kg in H as D. rewrite (St _ _ _ _ D). cbn [negb].
  split; [exact N|]. split; [intros Y; apply X in Y; discriminate|]. eexists o, _. split; [exact H|]. split; [reflexivity|]. rewrite Ei. split.
  - apply is_prop_kg. rewrite update_out, kg_put_eq. unfold displayed. now rewrite Ei.
  - intros q l j Ne. rewrite update_out. apply kg_put_ne; auto using data_wf. intros Y. apply data_inj in Y as (-> & -> & ->). now apply Ne.
Qed.
Lemma delete_cases' s p k i : PropsOk p k s ->
  (no_prop s p k i /\ prop_delete p k i s = (Err NotFound, s)) \/
  (~ no_prop s p k i /\ exists x s', is_prop s p k i x /\ prop_delete p k i s = (Ok x, s') /\ no_prop s' p k i
     /\ forall q l j, (q, l, j) <> (p, k, i) -> kg (DataKey q l j) s' = kg (DataKey q l j) s).
Proof.
  intros I. unfold prop_delete. destruct (read_cases s p k i I) as [(E & N)|(o & E & Ei & Ek & H & N)]; rewrite E; [left; auto|right].
  split; [exact N|]. eexists o, _. split; [exact H|]. split; [reflexivity|]. rewrite prop_okeys, prop_data_key. split.
  - intros x Hx. apply is_prop_kg in Hx. rewrite kg_delete_out, kg_del_eq in Hx; [discriminate|apply data_wf|intros; discriminate].
  - intros q l j Ne. rewrite kg_delete_out; [|apply data_wf|intros; discriminate]. apply kg_del_ne; auto using data_wf. intros Y. apply data_inj in Y as (-> & -> & ->). now apply Ne.
Qed.
Definition effect (k : Ask) : list MdOp :=
  match k with PrUpdate p k i d => [OPropUpdate p k i d None None] | PrDelete p k i => [OPropDelete p k i] | _ => [] end.
Lemma snd_lift A (f : A -> Reply) x : snd (lift f x) = snd x.
Proof. destruct x as [[|] s]; reflexivity. Qed.
Lemma call_effect snake k s : snd (prop_call k s) = md_run snake (effect k) s.
Proof. destruct k; cbn [prop_call effect md_run fold_left md_step]; rewrite snd_lift; reflexivity. Qed.

Section Server.
Variable valid_email : string -> bool.
Variable strong : string -> list string -> bool.
Variable ad rd : Z.
Variable snake : string -> string.
Variable ak rk : list N.
Variable admin_pw : string.
Variable admin_salt : N.
(** The server after [h], from its first start. *)
Notation after h := (prop_serve valid_email strong ad rd snake h (fresh ak rk admin_pw admin_salt)).
Notation accounts h := (fst (after h)).
Notation stored h := (snd (after h)).

Lemma serve_snoc h e : after (h ++ [e])%list = serve_one valid_email strong ad rd snake (after h) e.
Proof. unfold prop_serve. now rewrite fold_left_app. Qed.
Lemma accounts_inv h : exists n, Inv n (as_db (accounts h)).
Proof.
  induction h as [|e h (n & I)] using rev_ind; [exists 1; apply fresh_inv|].
  rewrite serve_snoc. destruct e as [o|q|o]; cbn [serve_one fst]; eauto.
  destruct (step_bound valid_email strong ad rd n _ o I) as (n' & _ & I'). eauto.
Qed.
Lemma respond_snd q sa s : snd (prop_respond q sa s) = s \/ snd (prop_respond q sa s) = snd (prop_call (handled (pq_ask q)) s).
Proof.
  unfold prop_respond, prop_handle. destruct (context_of _ _ _) as [c|e]; [|now left]. cbv zeta.
  destruct (_ || _); [|now left]. destruct (group_there _); [|now left]. destruct (allowed _ _); [|now left].
  right. destruct (prop_call _ s) as [[|] s']; reflexivity.
Qed.
Lemma stored_run h : Forall happening_ok h -> exists ops, forallb wf_op ops = true /\ stored h = md_run snake ops [].
Proof.
  induction h as [|e h IH] using rev_ind; intros H; [exists []; auto|]. apply Forall_app in H as (H & He). inversion He as [|? ? Hok _]; subst.
  destruct (IH H) as (ops & W & E). rewrite serve_snoc. destruct e as [o|q|o]; cbn [serve_one snd].
  - eauto.
  - destruct (respond_snd q (accounts h) (stored h)) as [X|X]; rewrite X; [eauto|]. rewrite E.
    exists (ops ++ effect (handled (pq_ask q)))%list. split.
    + rewrite forallb_app, W. now destruct (handled (pq_ask q)).
    + rewrite (call_effect snake). unfold md_run. now rewrite fold_left_app.
  - exists (ops ++ [o])%list. rewrite forallb_app, W. cbn in *. rewrite Hok. split; [reflexivity|]. rewrite E. unfold md_run. now rewrite fold_left_app.
Qed.
Lemma stored_ok h : Forall happening_ok h -> (forall p k, PropsOk p k (stored h)) /\ Sto (stored h).
Proof.
  intros H. destruct (stored_run h H) as (ops & W & ->). split; [intros; now apply props_reach|]. apply run_sto; [exact W|]. intros p k i x X. discriminate.
Qed.

(** ** Who asks *)
Lemma role_allowed i a org k : allowed (mkCtx i org (aa_role a) (some_list (aa_orgs a)) (some_list (aa_projects a))) (call_for k) = true <->
  has_role a org (project_of k) (lowest_role k).
Proof.
  rewrite C41_calls_exact. cbn [cx_org].
  assert (E : needs org (call_for k) = NProject (project_of k) (lowest_role k)) by (destruct k; reflexivity).
  rewrite E. unfold meets, has_role, in_org, in_project. cbn [cx_org cx_orgs cx_projects cx_role].
  rewrite !listed_some. setoid_rewrite listed_some. reflexivity.
Qed.
Lemma token_unique sa q id org id' org' : token_of sa q id org -> token_of sa q id' org' -> id = id' /\ org = org'.
Proof.
  intros (k & t & E1 & E2 & _ & _ & E3 & E4) (k' & t' & F1 & F2 & _ & _ & F3 & F4). rewrite E1 in F1. injection F1 as <-.
  rewrite E2 in F2. injection F2 as <-. rewrite E4 in F4. injection F4 as <-. split; congruence.
Qed.
Lemma asks_unique sa q id org a id' org' a' : asks sa q id org a -> asks sa q id' org' a' -> id = id' /\ org = org' /\ a = a'.
Proof.
  intros (T & A) (T' & A'). destruct (token_unique _ _ _ _ _ _ T T') as (<- & <-). unfold account_is in *. repeat split; congruence.
Qed.
Lemma sends_body k : takes_body k = true <-> sends k.
Proof. destruct k; cbn; split; auto; try discriminate; intros []. Qed.
(** Either the request is refused for who asks, or how, whatever is stored; or it reaches the call. *)
Lemma handle_cases n sa q : Inv n (as_db sa) -> plain (pq_ask q) ->
  (exists e m, (forall s, prop_handle q sa s = (inr e, s)) /\ fst (api_error e) = m /\ m <> 0 /\ (forall s, refused sa s q m)
     /\ (forall s m', refused sa s q m' -> m' = m) /\ ~ may_ask sa q)
  \/ (may_ask sa q /\ (forall s, prop_handle q sa s = prop_call (pq_ask q) s)
     /\ forall s m, refused sa s q m <-> m = 404 /\ missing s (pq_ask q) \/ m = 409 /\ taken s (pq_ask q)).
Proof.
  intros I NB. unfold prop_handle. destruct (plain_handled _ NB) as (Eh & Eg). rewrite Eh, Eg.
  destruct (context_cases n sa (pq_now q) (pq_bearer q) true KProfile I) as [(No & e & C & St)|[(id & org & T & G & C)|(id & org & a & T & A & Ei & C)]].
  - change (forall id org, ~ token_of sa q id org) in No. left. exists e, 401. rewrite C, St.
    assert (NM : ~ may_ask sa q) by (intros (id & org & a & (T & _) & _); now apply No in T).
    split; [reflexivity|]. split; [reflexivity|]. split; [discriminate|]. split; [intro; now constructor|]. split; [|exact NM].
    intros s m' X. inversion X as [Hn|i o Ht Hg|i o x (Ht & _) Hs Hp|i o x (Ht & _) Hp Hr|Hm Hx|Hm Hx]; subst; auto; exfalso; solve [exact (No _ _ Ht)|exact (NM Hm)].
  - change (token_of sa q id org) in T. left. exists (PMetadata MNotFound), 404. rewrite C.
    assert (Out : forall id' org' a', ~ asks sa q id' org' a').
    { intros id' org' a' (T' & A'). destruct (token_unique _ _ _ _ _ _ T T') as (<- & <-). unfold no_account, account_is in *. congruence. }
    assert (NM : ~ may_ask sa q) by (intros (id' & org' & a' & X & _); now apply Out in X).
    split; [reflexivity|]. split; [reflexivity|]. split; [discriminate|]. split; [intro; eapply account_gone; eassumption|]. split; [|exact NM].
    intros s m' X. inversion X as [Hn|i o Ht Hg|i o x Ha Hs Hp|i o x Ha Hp Hr|Hm Hx|Hm Hx]; subst; auto; exfalso; solve [exact (Hn _ _ T)|exact (Out _ _ _ Ha)|exact (NM Hm)].
  - change (token_of sa q id org) in T. rewrite C. assert (As : asks sa q id org a) by (split; assumption).
    assert (Uni : forall id' org' a', asks sa q id' org' a' -> id' = id /\ org' = org /\ a' = a) by (intros id' org' a' X; exact (asks_unique _ _ _ _ _ _ _ _ X As)).
    assert (There : forall id' org', token_of sa q id' org' -> ~ no_account (as_db sa) id').
    { intros id' org' T' G. destruct (token_unique _ _ _ _ _ _ T T') as (<- & <-). unfold no_account, account_is in *. congruence. }
    rewrite Ei.
    destruct (negb (takes_body (pq_ask q)) || pq_parses q) eqn:B.
    + assert (B' : sends (pq_ask q) -> pq_parses q = true).
      { rewrite <- sends_body. destruct (takes_body (pq_ask q)), (pq_parses q); cbn in B; intuition congruence. }
      pose proof (role_allowed id a org (pq_ask q)) as R. destruct (allowed _ _) eqn:Al.
      * assert (H : has_role a org (project_of (pq_ask q)) (lowest_role (pq_ask q))) by now apply R.
        assert (M : may_ask sa q) by (exists id, org, a; auto).
        right. split; [exact M|]. split; [reflexivity|]. intros s m. split.
        -- intros X. inversion X as [Hn|i o Ht Hg|i o x Ha Hs Hp|i o x Ha Hp Hr|Hm Hx|Hm Hx]; subst; auto; exfalso.
           ++ exact (Hn _ _ T).
           ++ exact (There _ _ Ht Hg).
           ++ specialize (B' Hs). congruence.
           ++ destruct (Uni _ _ _ Ha) as (-> & -> & ->). contradiction.
        -- intros [(-> & X)|(-> & X)]; [now apply not_there|now apply name_taken].
      * assert (H : ~ has_role a org (project_of (pq_ask q)) (lowest_role (pq_ask q))) by (intro X; apply R in X; discriminate).
        assert (NM : ~ may_ask sa q) by (intros (id' & org' & a' & X & _ & Y); destruct (Uni _ _ _ X) as (-> & -> & ->); contradiction).
        left. exists PForbidden, 403. split; [reflexivity|]. split; [reflexivity|]. split; [discriminate|]. split; [intro; eapply no_role; eassumption|]. split; [|exact NM].
        intros s m' X. inversion X as [Hn|i o Ht Hg|i o x Ha Hs Hp|i o x Ha Hp Hr|Hm Hx|Hm Hx]; subst; auto; exfalso.
        -- exact (Hn _ _ T).
        -- exact (There _ _ Ht Hg).
        -- specialize (B' Hs). congruence.
        -- exact (NM Hm).
        -- exact (NM Hm).
    + assert (B' : sends (pq_ask q) /\ pq_parses q = false).
      { rewrite <- sends_body. destruct (takes_body (pq_ask q)), (pq_parses q); cbn in B; try discriminate. auto. }
      destruct B' as (Bs & Bp).
      assert (NM : ~ may_ask sa q) by (intros (id' & org' & a' & _ & Y & _); specialize (Y Bs); congruence).
      left. exists PBadRequest, 400. split; [reflexivity|]. split; [reflexivity|]. split; [discriminate|].
      split; [intro; eapply bad_body; eassumption|]. split; [|exact NM].
      intros s m' X. inversion X as [Hn|i o Ht Hg|i o x Ha Hs Hp|i o x Ha Hp Hr|Hm Hx|Hm Hx]; subst; auto; exfalso.
      * exact (Hn _ _ T).
      * exact (There _ _ Ht Hg).
      * specialize (Hp Bs). congruence.
      * exact (NM Hm).
      * exact (NM Hm).
Qed.
(** The call itself. *)
Lemma listed_props l : (forall v, In v l -> exists x, v = VRec (RProperty x)) -> exists xs, as_props l = Ok xs /\ forall x, In x xs <-> In (VRec (RProperty x)) l.
Proof.
  induction l as [|v l IH]; intros H.
  - exists []. split; [reflexivity|]. intros; cbn; tauto.
  - destruct (H v (or_introl eq_refl)) as (x & ->). destruct IH as (xs & E & X); [intros u Hu; apply H; now right|].
    exists (x :: xs). cbn. rewrite E. split; [reflexivity|]. intros y. rewrite X. split; (intros [Y|Y]; [left; congruence|now right]).
Qed.
Lemma call_cases h k : Forall happening_ok h ->
  let s := stored h in
  (missing s k /\ ~ taken s k /\ prop_call k s = (inr (PMetadata MNotFound), s)) \/
  (taken s k /\ ~ missing s k /\ prop_call k s = (inr (PMetadata MAlreadyExists), s)) \/
  (~ missing s k /\ ~ taken s k /\ exists y s', prop_call k s = (inl y, s') /\ answers s s' k y
     /\ forall p l i x, is_prop s p l i x -> (forall d, k <> PrUpdate p l i d) -> k <> PrDelete p l i -> is_prop s' p l i x).
Proof.
  intros H s. destruct (stored_ok h H) as (I & St). fold s in I, St.
  destruct k as [p k i|p k n|p k|p k i d|p k i]; cbn [prop_call].
  - destruct (read_cases s p k i (I p k)) as [(E & N)|(x & E & Ei & _ & Hx & N)]; rewrite E; cbn [lift]; [left; cbn; auto|right; right].
    split; [exact N|]. split; [cbn; auto|]. eexists _, _. split; [reflexivity|]. split; [cbn; auto|auto].
  - destruct (name_read s p k n (I p k)) as [(E & N)|(x & E & Hx & En)]; rewrite E; cbn [lift]; [left; auto|right; right].
    split; [intros M; now apply M in Hx|]. split; [cbn; auto|]. eexists _, _. split; [reflexivity|]. split; [cbn; auto|auto].
  - right; right. split; [cbn; auto|]. split; [cbn; auto|].
    destruct (stored_run h H) as (ops & W & E). fold s in E.
    assert (L : forall v, In v (list_prefix (make_data_key (prop_ns p k)) s) <-> exists id, kg (DataKey p k id) s = Some v).
    { intros v. rewrite E. replace (prop_ns p k) with (ns_str (kind_ns p k)) by now destruct k. exact (list_ns snake ops (kind_ns p k) v W). }
    destruct (listed_props (list_prefix (make_data_key (prop_ns p k)) s)) as (xs & Ee & X).
    { intros v Hv. apply L in Hv as (id & Hv). destruct (ix_data _ _ _ (I p k) _ _ Hv) as (r & ks & -> & K & _). destruct r; try discriminate. eauto. }
    rewrite Ee. cbn [lift]. eexists _, _. split; [reflexivity|]. split; [|auto]. cbn [answers]. intros x. rewrite X, L. split.
    + intros (id & D). apply is_prop_kg in D. destruct (prop_by_id_ok _ _ _ _ _ (I p k) D) as (-> & _). exact D.
    + intros D. exists (pp_id x). now apply is_prop_kg.
  - destruct (update_cases' s p k i d (I p k) St) as [(N & E)|[(Tk & E)|(N & Nt & o & s' & Ho & E & Hn & Fr)]]; rewrite E; cbn [lift].
    + left. split; [exact N|]. split; [|reflexivity]. destruct d as [[z|]|]; cbn; auto. intros (X & _). contradiction.
    + right; left. split; [exact Tk|]. split; [|reflexivity]. cbn [missing]. destruct d as [[z|]|]; cbn in Tk; try contradiction. apply Tk.
    + right; right. split; [exact N|]. split; [exact Nt|]. eexists _, _. split; [reflexivity|]. split; [cbn; eauto|].
      intros q l j x Hx Hd _. apply is_prop_kg. rewrite Fr; [now apply is_prop_kg|]. intros [= -> -> ->]. now apply (Hd d).
  - destruct (delete_cases' s p k i (I p k)) as [(N & E)|(N & x & s' & Hx & E & Hn & Fr)]; rewrite E; cbn [lift]; [left; cbn; auto|right; right].
    split; [exact N|]. split; [cbn; auto|]. eexists _, _. split; [reflexivity|]. split; [cbn; auto|].
    intros q l j y Hy _ Hd. apply is_prop_kg. rewrite Fr; [now apply is_prop_kg|]. intros [= -> -> ->]. now apply Hd.
Qed.
Lemma respond_cases h q : Forall happening_ok h -> plain (pq_ask q) ->
  let s := stored h in
  (exists m, prop_respond q (accounts h) s = ((m, None), s) /\ m <> 0 /\ forall m', refused (accounts h) s q m' <-> m' = m) \/
  (may_ask (accounts h) q /\ (forall m, ~ refused (accounts h) s q m) /\ exists y s', prop_respond q (accounts h) s = ((200, Some y), s')
     /\ answers s s' (pq_ask q) y /\ forall p l i x, is_prop s p l i x -> (forall d, pq_ask q <> PrUpdate p l i d) -> pq_ask q <> PrDelete p l i -> is_prop s' p l i x).
Proof.
  intros H NB s. destruct (accounts_inv h) as (n & I). unfold prop_respond.
  destruct (handle_cases n _ q I NB) as [(e & m & X & Em & Nz & Rf & Un & _)|(M & X & Rf)]; rewrite X.
  - left. exists m. rewrite Em. split; [reflexivity|]. split; [exact Nz|]. intros m'. split; [apply Un|]. intros ->. apply Rf.
  - destruct (call_cases h (pq_ask q) H) as [(Mi & Nt & E)|[(Tk & Nm & E)|(Nm & Nt & y & s' & E & An & Fr)]]; unfold s in *; clear s; rewrite E.
    + left. exists 404. split; [reflexivity|]. split; [discriminate|]. intros m'. rewrite Rf. split; [intros [(-> & _)|(_ & Y)]; [reflexivity|contradiction]|auto].
    + left. exists 409. split; [reflexivity|]. split; [discriminate|]. intros m'. rewrite Rf. split; [intros [(_ & Y)|(-> & _)]; [contradiction|reflexivity]|auto].
    + right. split; [exact M|]. split; [intros m Y; apply Rf in Y as [(_ & Y)|(_ & Y)]; contradiction|]. eauto 6.
Qed.

(** ** C141 *)
(** Full statement: every request is refused for these reasons only, with these statuses, and
    otherwise carried out.  Proved: for all requests about the five kinds of groups and about
    events, in whatever history of account calls, requests and other calls, but not for one
    property of a kind of groups by its number (see [C141_group_property_refuted]). *)
Theorem C141_refusals_partial : forall h q n, Forall happening_ok h -> of_group (kind_of (pq_ask q)) -> ~ group_by_number (pq_ask q) ->
  let r := fst (prop_respond q (accounts h) (stored h)) in
  (snd r = None /\ fst r = n) <-> refused (accounts h) (stored h) q n.
Proof.
  intros h q n H O N r. unfold r. destruct (respond_cases h q H (conj O N)) as [(m & E & Nz & Rf)|(M & Nr & y & s' & E & _)]; rewrite E; cbn [fst snd].
  - rewrite Rf. split; [now intros (_ & <-)|now intros ->].
  - split; [intros (X & _); discriminate|]. intros X. now apply Nr in X.
Qed.
(** What is answered is what was asked for; it was asked by somebody who may. *)
Theorem C141_answers_partial : forall h q y, Forall happening_ok h -> of_group (kind_of (pq_ask q)) -> ~ group_by_number (pq_ask q) ->
  let r := fst (prop_respond q (accounts h) (stored h)) in
  snd r = Some y ->
  fst r = 200 /\ may_ask (accounts h) q /\ answers (stored h) (stored (h ++ [Asked q])%list) (pq_ask q) y.
Proof.
  intros h q y H O N r. unfold r. rewrite serve_snoc. cbn [serve_one snd].
  destruct (respond_cases h q H (conj O N)) as [(m & E & _)|(M & Nr & y' & s' & E & An & _)]; rewrite E; cbn [fst snd]; [discriminate|]. intros [= <-]. auto.
Qed.
(** A request that is refused or not answered, whichever it is, changes nothing; one that is
    carried out leaves every property but the one it changes or deletes as it was. *)
Theorem C141_only_that_property : forall h q, Forall happening_ok h ->
  (snd (fst (prop_respond q (accounts h) (stored h))) = None -> after (h ++ [Asked q])%list = after h) /\
  forall p k i x, is_prop (stored h) p k i x -> (forall d, pq_ask q <> PrUpdate p k i d) -> pq_ask q <> PrDelete p k i ->
    is_prop (stored (h ++ [Asked q])%list) p k i x.
Proof.
  intros h q H. rewrite serve_snoc. cbn [serve_one snd].
  assert (Same : (snd (prop_respond q (accounts h) (stored h)) = stored h) -> (snd (fst (prop_respond q (accounts h) (stored h))) = None ->
    (accounts h, snd (prop_respond q (accounts h) (stored h))) = after h) /\
    forall p k i x, is_prop (stored h) p k i x -> (forall d, pq_ask q <> PrUpdate p k i d) -> pq_ask q <> PrDelete p k i ->
    is_prop (snd (prop_respond q (accounts h) (stored h))) p k i x).
  { intros E. rewrite E. split; [intros _; symmetry; apply surjective_pairing|auto]. }
  unfold prop_respond, prop_handle in *. destruct (context_of _ _ _) as [c|e]; [|now apply Same]. cbv zeta in *.
  destruct (_ || _); [|now apply Same]. destruct (group_there _); [|now apply Same]. destruct (allowed _ _); [|now apply Same].
  destruct (call_cases h (handled (pq_ask q)) H) as [(_ & _ & E)|[(_ & _ & E)|(_ & _ & y & s' & E & _ & Fr)]]; rewrite E in *; [now apply Same|now apply Same|].
  cbn [fst snd]. split; [discriminate|]. intros p k i x Hx Hu Hd. apply Fr; [exact Hx| |]; intros; destruct (pq_ask q) as [? [|?] ?|? ? ?|? ?|? ? ? ?|? ? ?]; cbn [handled]; auto; discriminate.
Qed.
(** To somebody who may not ask the answer is the same whatever is stored. *)
Theorem C141_hidden : forall h q s1 s2, ~ may_ask (accounts h) q ->
  fst (prop_respond q (accounts h) s1) = fst (prop_respond q (accounts h) s2).
Proof.
  intros h q s1 s2 NM. destruct (accounts_inv h) as (n & I). unfold prop_respond, prop_handle.
  assert (Hc : call_for (handled (pq_ask q)) = call_for (pq_ask q)) by (destruct (pq_ask q) as [? [|?] ?|? ? ?|? ?|? ? ? ?|? ? ?]; reflexivity).
  assert (Hb : takes_body (handled (pq_ask q)) = takes_body (pq_ask q)) by (destruct (pq_ask q) as [? [|?] ?|? ? ?|? ?|? ? ? ?|? ? ?]; reflexivity).
  destruct (context_cases n (accounts h) (pq_now q) (pq_bearer q) true KProfile I) as [(No & e & C & St)|[(id & org & T & G & C)|(id & org & a & T & A & Ei & C)]];
    rewrite C; [reflexivity|reflexivity|]. change (token_of (accounts h) q id org) in T. cbv zeta. rewrite Hc, Hb.
  destruct (negb (takes_body (pq_ask q)) || pq_parses q) eqn:B; [|reflexivity]. destruct (group_there _); [|reflexivity].
  destruct (allowed _ _) eqn:Al; [|reflexivity]. exfalso. apply NM. rewrite Ei in Al. apply role_allowed in Al. exists id, org, a. split; [split; assumption|]. split; [|exact Al].
  rewrite <- sends_body. destruct (takes_body (pq_ask q)), (pq_parses q); cbn in B; intuition congruence.
Qed.
(** The property of number [i] of the groups of kind [g] is never what a request for it is
    answered: whoever may ask is shown, if [i] is the number of a kind of groups, the property of
    number [g] of the groups of kind [i], whatever is stored; and is not answered otherwise. *)
Theorem C141_group_property_refuted : forall h q p g i, Forall happening_ok h -> pq_ask q = PrGet p (KGroup g) i -> may_ask (accounts h) q ->
  let r := fst (prop_respond q (accounts h) (stored h)) in
  (5 <= i -> snd r = None /\ fst r = 0) /\
  (i < 5 -> forall x, snd r = Some (YProp x) <-> is_prop (stored h) p (KGroup i) g x) /\
  (i < 5 -> no_prop (stored h) p (KGroup i) g -> r = (404, None)).
Proof.
  intros h q p g i H K (id & org & a & (T & A) & Bd & R) r. unfold r. clear r. destruct (accounts_inv h) as (n & I).
  destruct (context_cases n (accounts h) (pq_now q) (pq_bearer q) true KProfile I) as [(No & _)|[(id' & org' & T' & G & _)|(id' & org' & a' & T' & A' & Ei & C)]].
  { change (forall id org, ~ token_of (accounts h) q id org) in No. now apply No in T. }
  { change (token_of (accounts h) q id' org') in T'. destruct (token_unique _ _ _ _ _ _ T T') as (<- & <-). unfold no_account, account_is in *. congruence. }
  change (token_of (accounts h) q id' org') in T'. destruct (token_unique _ _ _ _ _ _ T T') as (<- & <-).
  assert (a' = a) by (unfold account_is in *; congruence). subst a'.
  apply (role_allowed id) in R. rewrite <- Ei in R at 1. unfold prop_respond, prop_handle. rewrite C. cbv zeta. rewrite K in *. cbn [handled takes_body negb orb group_there kind_of].
  split; [|split].
  - intros L. apply N.ltb_ge in L. unfold group_there, GROUPS. cbn [kind_of]. rewrite L. auto.
  - intros L x. unfold group_there, GROUPS. cbn [kind_of]. apply N.ltb_lt in L. rewrite L. change (call_for (PrGet p (KGroup i) g)) with (call_for (PrGet p (KGroup g) i)).
    rewrite Ei in *. rewrite R. cbn [prop_call]. unfold is_prop. destruct (prop_by_id p (KGroup i) g (stored h)); cbn; split; congruence.
  - intros L N. unfold group_there, GROUPS. cbn [kind_of]. apply N.ltb_lt in L. rewrite L. change (call_for (PrGet p (KGroup i) g)) with (call_for (PrGet p (KGroup g) i)).
    rewrite Ei in *. rewrite R. cbn [prop_call]. destruct (stored_ok h H) as (Ok & _). destruct (read_cases _ p (KGroup i) g (Ok _ _)) as [(E & _)|(x & _ & _ & _ & _ & N')]; [now rewrite E|contradiction].
Qed.
End Server.
(** ** Witness: accounts 2, a reader, and 3, a member of project 7 (tokens 2 and 4), as in
    [C138_witness]; three properties of events and two of users (groups of kind 0), one of kind 1. *)
Definition C141_at (t : option nat) (k : Ask) : PRequest := mkPRequest 1100 t true k.
Definition C141_h : list Happening :=
  [Account (OLogIn 1000 "admin@admin.com" "pw" None);
   Account (OAccCreate 1001 0 (mkCReq "pw" "rea@x.org" None false false None [] [(7, JReader)]) 0);
   Account (OAccCreate 1002 0 (mkCReq "pw" "mem@x.org" None false false None [] [(7, JMember)]) 0);
   Account (OMembership 2 [(1, OrgMember)]); Account (OMembership 3 [(1, OrgMember)]);
   Account (OOrganizations [(1, [2; 3])]);
   Account (OLogIn 1003 "rea@x.org" "pw" None); Account (OLogIn 1004 "mem@x.org" "pw" None);
   Other (OPropGetOrCreate 7 KEvent "Price" None (PBase TString) false); Other (OPropGetOrCreate 7 KEvent "Size" None (PBase TString) false);
   Other (OPropGetOrCreate 7 (KGroup 0) "Age" None (PBase TString) false); Other (OPropGetOrCreate 7 (KGroup 2) "Town" None (PBase TString) false);
   Other (OPropGetOrCreate 7 (KGroup 1) "Firm" None (PBase TString) false); Other (OPropGetOrCreate 7 (KGroup 1) "Seat" None (PBase TString) false);
   Asked (C141_at (Some 4%nat) (PrUpdate 7 KEvent 1 (Some (Some "Cost"%string))))].
Definition C141_s := prop_serve (fun _ => true) (fun _ _ => true) 900 604800 (fun x => x) C141_h (fresh [1] [2] "pw" 0).
Definition C141_say (q : PRequest) : N := fst (fst (prop_respond q (fst C141_s) (snd C141_s))).
Definition C141_name (q : PRequest) : option string :=
  match snd (fst (prop_respond q (fst C141_s) (snd C141_s))) with Some (YProp x) => Some (pp_name x) | _ => None end.
Example C141_witness : Forall happening_ok C141_h
  /\ map C141_say [C141_at (Some 2%nat) (PrGet 7 KEvent 1); C141_at (Some 2%nat) (PrGet 7 KEvent 3); C141_at (Some 2%nat) (PrByName 7 KEvent "Size"); C141_at (Some 2%nat) (PrByName 7 KEvent "Cost");
       C141_at (Some 2%nat) (PrList 7 (KGroup 1)); C141_at (Some 2%nat) (PrUpdate 7 KEvent 2 (Some None)); C141_at (Some 4%nat) (PrUpdate 7 KEvent 2 (Some (Some "Cost"%string)));
       C141_at (Some 4%nat) (PrUpdate 7 KEvent 1 (Some (Some "Cost"%string))); C141_at (Some 4%nat) (PrDelete 7 KEvent 1); C141_at (Some 0%nat) (PrDelete 7 (KGroup 1) 2);
       C141_at (Some 2%nat) (PrGet 8 KEvent 1); C141_at None (PrGet 7 KEvent 1); mkPRequest 1100 (Some 4%nat) false (PrUpdate 7 KEvent 1 None); C141_at (Some 2%nat) (PrList 7 (KGroup 5))]
     = [200; 404; 200; 404; 200; 403; 409; 200; 403; 200; 403; 401; 400; 0]
  /\ C141_name (C141_at (Some 2%nat) (PrByName 7 (KGroup 1) "Seat")) = Some "Seat"%string
  /\ (exists x, is_prop (snd C141_s) 7 (KGroup 1) 2 x /\ pp_name x = "Seat"%string)
  /\ C141_name (C141_at (Some 2%nat) (PrGet 7 (KGroup 1) 2)) = Some "Town"%string.
Proof.
  split; [repeat constructor|]. split; [vm_compute; reflexivity|]. split; [vm_compute; reflexivity|]. split; [eexists; split; vm_compute; reflexivity|]. vm_compute. reflexivity.
Qed.
Print Assumptions C141_refusals_partial.
Print Assumptions C141_answers_partial.
Print Assumptions C141_only_that_property.
Print Assumptions C141_hidden.
Print Assumptions C141_group_property_refuted.
