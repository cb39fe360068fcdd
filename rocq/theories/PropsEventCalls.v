(** C140: requests about the events of a project. *)
From Coq Require Import List NArith ZArith String Bool Lia.
From Verif Require Import AMap Kv KvKeys KvKeysFacts KvFacts Md MdOps MdFrame MdIndex MdEntities MdWf MdTyped
  Access Auth AuthSpec AuthFacts AuthStatus AuthStatusSpec AuthStatusFacts PropsAuth PropsAccess PropsBoardCalls EventCalls EventCallsSpec.
Import ListNotations.
Local Open Scope N_scope.

Notation ens p := (NProj p PEvents).
Notation DataKey p i := (KData (NProj p PEvents) i).
Notation AllTyped := (Typed (fun _ _ => True)).

(** ** The events of a store *)
Lemma is_event_kg s p i n d : is_event s p i n d <-> exists e, kg (DataKey p i) s = Some (VRec (REvent e)) /\ ev_name e = n /\ ev_display e = d.
Proof. unfold is_event. setoid_rewrite event_by_id_spec. reflexivity. Qed.
Lemma no_event_kg s p i : EventsOk p s -> no_event s p i <-> kg (DataKey p i) s = None.
Proof.
  intros I. split.
  - intros H. destruct (kg (DataKey p i) s) as [v|] eqn:E; [|reflexivity].
    destruct (ix_data _ _ _ I _ _ E) as (r & ks & -> & K & _). destruct r; try discriminate.
    exfalso. eapply H. apply is_event_kg. eauto.
  - intros E n d H. apply is_event_kg in H as (e & H & _). congruence.
Qed.
Lemma read_cases s p i : EventsOk p s ->
  (event_by_id p i s = Err NotFound /\ no_event s p i) \/
  (exists e, event_by_id p i s = Ok e /\ ev_id e = i /\ is_event s p i (ev_name e) (ev_display e) /\ ~ no_event s p i).
Proof.
  intros I. destruct (event_by_id p i s) as [e|x] eqn:E.
  - right. exists e. split; [reflexivity|]. split; [exact (event_by_id_ok _ _ _ _ I E)|].
    assert (H : is_event s p i (ev_name e) (ev_display e)) by (exists e; auto). split; [exact H|]. intros N. now apply N in H.
  - destruct (event_not_panicked _ _ _ _ I E) as (-> & K). left. split; [reflexivity|]. now apply no_event_kg.
Qed.
(** A name that is indexed is that of an event, and the other way round. *)
Lemma indexed_event s p ik : EventsOk p s -> kg (kidx (ens p) ik) s <> None <->
  exists i e, kg (DataKey p i) s = Some (VRec (REvent e)) /\ In ik (iks [Some (IName, ev_name e); option_map (pair IDisplayName) (ev_display e)]).
Proof.
  intros I. split.
  - intros H. destruct (kg (kidx (ens p) ik) s) as [v|] eqn:E; [|congruence].
    destruct (ix_idx _ _ _ I _ _ E) as (i & r & ks & -> & D & K & Hin). destruct r; try discriminate. injection K as _ <-. eauto.
  - intros (i & e & D & Hin). destruct (ix_data _ _ _ I _ _ D) as (r & ks & [= <-] & K & All). injection K as _ <-. rewrite (All _ Hin). discriminate.
Qed.
Lemma in_iks ik n d : In ik (iks [Some (IName, n); option_map (pair IDisplayName) d]) <-> ik = (IName, n) \/ exists x, d = Some x /\ ik = (IDisplayName, x).
Proof.
  rewrite iks_in. cbn. split.
  - intros [[= <-]|[H|[]]]; [now left|]. destruct d; [|discriminate]. injection H as <-. eauto.
  - intros [->|(x & -> & ->)]; auto.
Qed.
Lemma insert_taken s p n d : EventsOk p s -> check_insert s (event_keys p n d) = false <-> taken s (EvCreate p n d).
Proof.
  intros I. rewrite event_okeys. cbn [taken]. split.
  - intros C. assert (X : ~ forall ik, In ik (iks [Some (IName, n); option_map (pair IDisplayName) d]) -> kg (kidx (ens p) ik) s = None).
    { rewrite <- check_insert_spec. congruence. }
    assert (Y : exists ik, In ik (iks [Some (IName, n); option_map (pair IDisplayName) d]) /\ kg (kidx (ens p) ik) s <> None).
    { clear C. destruct (kg (kidx (ens p) (IName, n)) s) as [v|] eqn:E1.
      - exists (IName, n). split; [apply in_iks; now left|congruence].
      - destruct d as [x|].
        + destruct (kg (kidx (ens p) (IDisplayName, x)) s) as [v|] eqn:E2.
          * exists (IDisplayName, x). split; [apply in_iks; right; eauto|congruence].
          * exfalso. apply X. intros ik H. apply in_iks in H as [->|(y & [= <-] & ->)]; assumption.
        + exfalso. apply X. intros ik H. apply in_iks in H as [->|(y & Hy & _)]; [assumption|discriminate]. }
    destruct Y as (ik & H & K). apply indexed_event in K as (i & e & D & K); [|exact I].
    exists i, (ev_name e), (ev_display e). split; [apply is_event_kg; eauto|].
    apply in_iks in H as [->|(x & -> & ->)]; apply in_iks in K as [K|(y & Hy & K)]; try discriminate; injection K as <-; eauto.
  - intros (i & n' & d' & H & T). apply is_event_kg in H as (e & D & <- & <-).
    destruct (check_insert s _) eqn:C; [|reflexivity]. rewrite check_insert_spec in C.
    assert (Y : exists ik, In ik (iks [Some (IName, n); option_map (pair IDisplayName) d]) /\ In ik (iks [Some (IName, ev_name e); option_map (pair IDisplayName) (ev_display e)])).
    { destruct T as [->|(x & -> & E)]; [exists (IName, n)|exists (IDisplayName, x)]; split; apply in_iks; eauto. }
    destruct Y as (ik & H1 & H2). exfalso. assert (K : kg (kidx (ens p) ik) s <> None) by (apply indexed_event; eauto). apply K, C, H1.
Qed.
Lemma update_taken s p i e d : EventsOk p s -> event_by_id p i s = Ok e ->
  check_update s (match d with Some x => [event_display_key p x] | None => [] end) (match d with Some _ => [event_display_key p (ev_display e)] | None => [] end) = false
  <-> taken s (EvUpdate p i d).
Proof.
  intros I E. assert (OK : forall y, [event_display_key p y] = okeys (ens p) [option_map (pair IDisplayName) y]) by (intros []; reflexivity).
  assert (There : ~ no_event s p i) by (intros N; eapply N; exists e; eauto).
  assert (D : kg (DataKey p i) s = Some (VRec (REvent e))) by now apply event_by_id_spec.
  destruct d as [[x|]|]; cbn [taken].
  2:{ rewrite !OK. split; [|contradiction]. intros C. exfalso. revert C. apply not_false_iff_true. apply check_update_spec. intros [|[|j]] a b; cbn; discriminate. }
  2:{ split; [discriminate|contradiction]. }
  rewrite !OK. set (c := check_update _ _ _).
  assert (S : c = true <-> ev_display e = Some x \/ kg (kidx (ens p) (IDisplayName, x)) s = None).
  { unfold c. rewrite check_update_spec. cbn. split.
    - intros H. destruct (H 0%nat (IDisplayName, x) _ eq_refl eq_refl) as [H1|H1]; [left|now right].
      destruct (ev_display e); [|discriminate]. now injection H1 as ->.
    - intros H [|[|j]] a b; cbn; try discriminate. intros [= <-] [= <-]. destruct H as [->|H]; auto. }
  clearbody c. split.
  - intros ->. split; [exact There|].
    assert (N1 : ev_display e <> Some x) by (intros H; assert (false = true) by (apply S; now left); discriminate).
    assert (N2 : kg (kidx (ens p) (IDisplayName, x)) s <> None) by (intros H; assert (false = true) by (apply S; now right); discriminate).
    apply indexed_event in N2 as (j & e' & D' & K); [|exact I]. apply in_iks in K as [K|(y & Hy & [= <-])]; [discriminate|].
    exists j, (ev_name e'). split; [|apply is_event_kg; eauto]. intros ->. rewrite D in D'. injection D' as <-. contradiction.
  - intros (_ & j & n & Ne & H). apply is_event_kg in H as (e' & D' & <- & Ed). destruct c; [|reflexivity]. exfalso.
    destruct S as [S _]. destruct (S eq_refl) as [Q|Q].
    + apply Ne. symmetry. apply (Indexed_unique (ens p) event_iks s i j (REvent e) (REvent e')
        [Some (IName, ev_name e); option_map (pair IDisplayName) (ev_display e)] [Some (IName, ev_name e'); option_map (pair IDisplayName) (ev_display e')] (IDisplayName, x)); auto.
      * cbn. now rewrite (event_by_id_ok _ _ _ _ I E).
      * destruct (ix_data _ _ _ I _ _ D') as (r & ks & [= <-] & K & _). cbn in *. now injection K as -> _.
      * apply in_iks. eauto.
      * apply in_iks. eauto.
    + assert (K : kg (kidx (ens p) (IDisplayName, x)) s <> None) by (apply indexed_event; [exact I|]; exists j, e'; split; [exact D'|apply in_iks; eauto]). contradiction.
Qed.

(** ** What a call does to the stored events *)
Lemma create_cases s p n d : EventsOk p s -> AllTyped s ->
  (taken s (EvCreate p n d) /\ event_create p n d [] s = (Err AlreadyExists, s)) \/
  (~ taken s (EvCreate p n d) /\ exists i s', event_create p n d [] s = (Ok (mkEvent i n d []), s') /\ kg (DataKey p i) s = None
     /\ kg (DataKey p i) s' = Some (VRec (REvent (mkEvent i n d []))) /\ (forall q j, (q, j) <> (p, i) -> kg (DataKey q j) s' = kg (DataKey q j) s)).
Proof.
  intros I T. pose proof (insert_taken s p n d I) as X. unfold event_create. destruct (check_insert s (event_keys p n d)) eqn:C.
  2:{ left. split; [now apply X|reflexivity]. }
  right. split; [intros H; apply X in H; discriminate|].
  change (make_id_seq_key (events_ns p)) with (render (KSeq (ens p))) in *.
  destruct (next_seq (render (KSeq (ens p))) s) as [r s1] eqn:En.
  destruct (next_seq_indexed (ens p) event_iks s r s1 I En) as (i & -> & L & E1 & K0 & _). cbv zeta in *.
  change (make_data_value_key (events_ns p) i) with (render (DataKey p i)) in *.
  set (s3 := insert_index _ _ _) in *.
  assert (K3 : AllTyped s3). { unfold s3. apply typed_insert.
    - unfold event_keys. constructor; [|constructor; [|constructor]].
      + exists (kidx (ens p) (IName, n)). split; [reflexivity|]. split; [reflexivity|]. intro; exact Logic.I.
      + destruct d as [x|]; [|exact Logic.I]. exists (kidx (ens p) (IDisplayName, x)). split; [reflexivity|]. split; [reflexivity|]. intro; exact Logic.I.
    - apply typed_put; [exists (DataKey p i); split; [reflexivity|]; split; [reflexivity|]; exact Logic.I|].
      apply (typed_next _ _ _ _ _ _ En); [|exact T]. exists (KSeq (ens p)). split; [reflexivity|]. split; [reflexivity|]. intro; exact Logic.I. }
  destruct (dict_read (fun _ _ => True) p TABLE_EVENTS COLUMN_EVENT n s3 eq_refl K3) as (m & Em).
  pose proof (dict_frame (in_dict p TABLE_EVENTS COLUMN_EVENT) p TABLE_EVENTS COLUMN_EVENT n s3 eq_refl (fun k H => H)) as Fr.
  destruct (dict_get_or_create p TABLE_EVENTS COLUMN_EVENT n s3) as [[m'|] s4]; [|discriminate]. cbn [snd] in Fr.
  assert (KD : forall q j, kg (DataKey q j) s4 = kg (DataKey q j) s3) by (intros; apply (only_kg _ _ _ _ Fr); [reflexivity|cbn; tauto]).
  exists i, s4. split; [reflexivity|]. split; [exact K0|].
  assert (K : forall q j, kg (DataKey q j) s3 = kg (DataKey q j) (kput (render (DataKey p i)) (VRec (REvent (stored_event (mkEvent i n d [])))) s1)).
  { intros. unfold s3. rewrite event_okeys. apply kg_insert_out; [reflexivity|intros; discriminate]. }
  split.
  - rewrite KD, K, kg_put_eq. reflexivity.
  - intros q j Ne. rewrite KD, K. rewrite kg_put_ne; [|reflexivity|reflexivity|congruence]. subst s1. apply kg_put_ne; [reflexivity|reflexivity|discriminate].
Qed.
Lemma update_cases' s p i d : EventsOk p s ->
  (no_event s p i /\ event_update p i None d s = (Err NotFound, s)) \/
  (taken s (EvUpdate p i d) /\ event_update p i None d s = (Err AlreadyExists, s)) \/
  (~ no_event s p i /\ ~ taken s (EvUpdate p i d) /\ exists o e s', event_by_id p i s = Ok o /\ event_update p i None d s = (Ok e, s')
     /\ ev_id e = i /\ ev_name e = ev_name o /\ ev_display e = (match d with Some x => x | None => ev_display o end)
     /\ kg (DataKey p i) s' = Some (VRec (REvent (stored_event e))) /\ (forall q j, (q, j) <> (p, i) -> kg (DataKey q j) s' = kg (DataKey q j) s)).
Proof.
  intros I. destruct (read_cases s p i I) as [(E & N)|(o & E & Ei & H & N)]; unfold event_update; rewrite E; [left; auto|right].
  pose proof (update_taken s p i o d I E) as X. cbv zeta. cbn [app]. destruct (check_update s _ _) eqn:C.
  2:{ left. split; [now apply X|reflexivity]. }
  right. split; [exact N|]. split; [intros Y; apply X in Y; discriminate|].
  cbn [ev_id]. rewrite Ei. eexists o, _, _. split; [reflexivity|]. split; [reflexivity|]. cbn [ev_id ev_name ev_display]. split; [reflexivity|]. split; [reflexivity|]. split; [reflexivity|].
  change (make_data_value_key (events_ns p) i) with (render (DataKey p i)).
  assert (U : forall q j s1, kg (DataKey q j) (update_index s1 (match d with Some x => [event_display_key p x] | None => [] end)
     (match d with Some _ => [event_display_key p (ev_display o)] | None => [] end) i) = kg (DataKey q j) s1).
  { intros q j s1. destruct d as [x|]; [|reflexivity].
    assert (OK : forall y, [event_display_key p y] = okeys (ens p) [option_map (pair IDisplayName) y]) by (intros []; reflexivity).
    rewrite !OK. apply kg_update_out; auto; discriminate. }
  split.
  - rewrite U, kg_put_eq. reflexivity.
  - intros q j Ne. rewrite U. apply kg_put_ne; [reflexivity|reflexivity|congruence].
Qed.
Lemma delete_cases' s p i : EventsOk p s ->
  (no_event s p i /\ event_delete p i s = (Err NotFound, s)) \/
  (~ no_event s p i /\ exists e s', event_by_id p i s = Ok e /\ event_delete p i s = (Ok e, s') /\ kg (DataKey p i) s' = None
     /\ (forall q j, (q, j) <> (p, i) -> kg (DataKey q j) s' = kg (DataKey q j) s)).
Proof.
  intros I. destruct (read_cases s p i I) as [(E & N)|(o & E & Ei & H & N)]; unfold event_delete; rewrite E; [left; auto|right].
  split; [exact N|]. eexists o, _. split; [reflexivity|]. split; [reflexivity|].
  change (make_data_value_key (events_ns p) i) with (render (DataKey p i)). rewrite event_okeys. split.
  - rewrite kg_delete_out; [apply kg_del_eq|reflexivity|intros; discriminate].
  - intros q j Ne. rewrite kg_delete_out; [apply kg_del_ne; [reflexivity|reflexivity|congruence]|reflexivity|intros; discriminate].
Qed.
Lemma attach_cases s p i x : EventsOk p s ->
  (no_event s p i /\ attach_one p i x s = (Err NotFound, s)) \/
  (~ no_event s p i /\ exists o, event_by_id p i s = Ok o /\ ev_id o = i /\ let e := mkEvent i (ev_name o) (ev_display o) [x] in
     attach_one p i x s = (Ok e, snd (event_attach p i [x] s)) /\ kg (DataKey p i) (snd (event_attach p i [x] s)) = Some (VRec (REvent (stored_event e)))
     /\ (forall q j, (q, j) <> (p, i) -> kg (DataKey q j) (snd (event_attach p i [x] s)) = kg (DataKey q j) s)).
Proof.
  intros I. unfold attach_one, read_event, event_attach. destruct (read_cases s p i I) as [(E & N)|(o & E & Ei & H & N)]; rewrite E; [left; auto|right].
  split; [exact N|]. exists o. split; [reflexivity|]. split; [exact Ei|]. cbn [stored_event ev_props existsb ev_id ev_name ev_display app snd]. rewrite Ei.
  change (make_data_value_key (events_ns p) i) with (render (DataKey p i)). split; [reflexivity|]. split.
  - now rewrite kg_put_eq.
  - intros q j Ne. apply kg_put_ne; [reflexivity|reflexivity|congruence].
Qed.
Lemma detach_cases s p i x : EventsOk p s -> detach_one p i x s = (Err NotFound, s).
Proof.
  intros I. unfold detach_one, read_event. destruct (read_cases s p i I) as [(E & N)|(o & E & _)]; rewrite E; reflexivity.
Qed.
Definition effect (k : Ask) : list MdOp :=
  match k with
  | EvCreate p n d => [OEventCreate p n d []] | EvUpdate p i d => [OEventUpdate p i None d]
  | EvAttach p i x => [OEventAttach p i [x]] | EvDelete p i => [OEventDelete p i]
  | _ => []
  end.
Lemma snd_lift A (f : A -> Reply) x : snd (lift f x) = snd x.
Proof. destruct x as [[|] s]; reflexivity. Qed.
Lemma call_effect snake k s : (forall p, EventsOk p s) -> snd (event_call k s) = md_run snake (effect k) s.
Proof.
  intros I. destruct k; cbn [event_call effect md_run fold_left md_step]; rewrite snd_lift; try reflexivity.
  - destruct (attach_cases s p id prop (I p)) as [(_ & E)|(_ & o & E0 & _ & E & _)]; rewrite E; [|reflexivity].
    unfold event_attach. unfold attach_one, read_event in E. destruct (event_by_id p id s); [discriminate|reflexivity].
  - now rewrite detach_cases.
Qed.

Section Server.
Variable valid_email : string -> bool.
Variable strong : string -> list string -> bool.
Variable ad rd : Z.
Variable snake : string -> string.
Variable ak rk : list N.
Variable admin_pw : string.
Variable admin_salt : N.
(** The server after [h], from its first start. *)
Notation after h := (event_serve valid_email strong ad rd snake h (fresh ak rk admin_pw admin_salt)).
Notation accounts h := (fst (after h)).
Notation stored h := (snd (after h)).

Lemma serve_snoc h e : after (h ++ [e])%list = serve_one valid_email strong ad rd snake (after h) e.
Proof. unfold event_serve. now rewrite fold_left_app. Qed.
Lemma accounts_inv h : exists n, Inv n (as_db (accounts h)).
Proof.
  induction h as [|e h (n & I)] using rev_ind; [exists 1; apply fresh_inv|].
  rewrite serve_snoc. destruct e as [o|q|o]; cbn [serve_one fst]; eauto.
  destruct (step_bound valid_email strong ad rd n _ o I) as (n' & _ & I'). eauto.
Qed.
Lemma md_run_events ops p : forallb wf_op ops = true -> forall s, EventsOk p s -> EventsOk p (md_run snake ops s).
Proof.
  unfold md_run. induction ops as [|o ops IH]; cbn [forallb fold_left]; intros W s I; [exact I|].
  apply andb_prop in W as (W1 & W2). apply IH; [exact W2|]. now apply md_step_events.
Qed.
Lemma respond_snd q sa s : snd (event_respond q sa s) = s \/ snd (event_respond q sa s) = snd (event_call (eq_ask q) s).
Proof.
  unfold event_respond, event_handle. destruct (context_of _ _ _) as [c|e]; [|now left].
  destruct (negb (path_fits _)); [now left|]. destruct (_ || _); [|now left]. destruct (allowed _ _); [|now left].
  right. destruct (event_call (eq_ask q) s) as [[|] s']; reflexivity.
Qed.
Lemma stored_run h : Forall happening_ok h -> exists ops, forallb wf_op ops = true /\ stored h = md_run snake ops [].
Proof.
  induction h as [|e h IH] using rev_ind; intros H; [exists []; auto|]. apply Forall_app in H as (H & He). inversion He as [|? ? Hok _]; subst.
  destruct (IH H) as (ops & W & E). rewrite serve_snoc. destruct e as [o|q|o]; cbn [serve_one snd].
  - eauto.
  - destruct (respond_snd q (accounts h) (stored h)) as [X|X]; rewrite X; [eauto|]. rewrite E.
    exists (ops ++ effect (eq_ask q))%list. split.
    + rewrite forallb_app, W. now destruct (eq_ask q).
    + rewrite (call_effect snake) by (intros p; apply md_run_events; [exact W|apply Indexed_nil]). unfold md_run. now rewrite fold_left_app.
  - exists (ops ++ [o])%list. rewrite forallb_app, W. cbn in *. rewrite Hok. split; [reflexivity|]. rewrite E. unfold md_run. now rewrite fold_left_app.
Qed.
Lemma stored_ok h : Forall happening_ok h -> (forall p, EventsOk p (stored h)) /\ AllTyped (stored h).
Proof.
  intros H. destruct (stored_run h H) as (ops & W & ->). split.
  - intros p. apply md_run_events; [exact W|apply Indexed_nil].
  - apply md_run_typed; [exact W|auto|apply Typed_nil].
Qed.

(** ** Who asks *)
Lemma role_allowed i a org k : allowed (mkCtx i org (aa_role a) (some_list (aa_orgs a)) (some_list (aa_projects a))) (call_for k) = true <->
  has_role a org (project_of k) (lowest_role k).
Proof.
  rewrite C41_calls_exact. cbn [cx_org].
  assert (E : needs org (call_for k) = NProject (project_of k) (lowest_role k)) by (destruct k; reflexivity).
  rewrite E. unfold meets, has_role, in_org, in_project. cbn [cx_org cx_orgs cx_projects cx_role].
  rewrite !listed_some. setoid_rewrite listed_some. reflexivity.
Qed.
Lemma token_unique sa q id org id' org' : token_of sa q id org -> token_of sa q id' org' -> id = id' /\ org = org'.
Proof.
  intros (k & t & E1 & E2 & _ & _ & E3 & E4) (k' & t' & F1 & F2 & _ & _ & F3 & F4). rewrite E1 in F1. injection F1 as <-.
  rewrite E2 in F2. injection F2 as <-. rewrite E4 in F4. injection F4 as <-. split; congruence.
Qed.
Lemma asks_unique sa q id org a id' org' a' : asks sa q id org a -> asks sa q id' org' a' -> id = id' /\ org = org' /\ a = a'.
Proof.
  intros (T & A) (T' & A'). destruct (token_unique _ _ _ _ _ _ T T') as (<- & <-). unfold account_is in *. repeat split; congruence.
Qed.
Lemma sends_body k : takes_body k = true <-> sends k.
Proof. destruct k; cbn; split; auto; try discriminate; intros []. Qed.
(** Either the request is refused for who asks, or how, whatever is stored; or it reaches the call. *)
Lemma handle_cases n sa q : Inv n (as_db sa) -> ~ by_name (eq_ask q) ->
  (exists e m, (forall s, event_handle q sa s = (inr e, s)) /\ fst (api_error e) = m /\ m <> 0 /\ (forall s, refused sa s q m)
     /\ (forall s m', refused sa s q m' -> m' = m) /\ ~ may_ask sa q)
  \/ (may_ask sa q /\ (forall s, event_handle q sa s = event_call (eq_ask q) s)
     /\ forall s m, refused sa s q m <-> m = 404 /\ missing s (eq_ask q) \/ m = 409 /\ taken s (eq_ask q)).
Proof.
  intros I NB. unfold event_handle. assert (PF : path_fits (eq_ask q) = true). { destruct (eq_ask q); try reflexivity. exfalso. apply NB. do 2 eexists. reflexivity. }
  rewrite PF. cbn [negb].
  destruct (context_cases n sa (eq_now q) (eq_bearer q) true KProfile I) as [(No & e & C & St)|[(id & org & T & G & C)|(id & org & a & T & A & Ei & C)]].
  - change (forall id org, ~ token_of sa q id org) in No. left. exists e, 401. rewrite C, St.
    assert (NM : ~ may_ask sa q) by (intros (id & org & a & (T & _) & _); now apply No in T).
    split; [reflexivity|]. split; [reflexivity|]. split; [discriminate|]. split; [intro; now constructor|]. split; [|exact NM].
    intros s m' X. inversion X as [Hn|i o Ht Hg|i o x (Ht & _) Hs Hp|i o x (Ht & _) Hp Hr|Hm Hx|Hm Hx]; subst; auto; exfalso; solve [exact (No _ _ Ht)|exact (NM Hm)].
  - change (token_of sa q id org) in T. left. exists (PMetadata MNotFound), 404. rewrite C.
    assert (Out : forall id' org' a', ~ asks sa q id' org' a').
    { intros id' org' a' (T' & A'). destruct (token_unique _ _ _ _ _ _ T T') as (<- & <-). unfold no_account, account_is in *. congruence. }
    assert (NM : ~ may_ask sa q) by (intros (id' & org' & a' & X & _); now apply Out in X).
    split; [reflexivity|]. split; [reflexivity|]. split; [discriminate|]. split; [intro; eapply account_gone; eassumption|]. split; [|exact NM].
    intros s m' X. inversion X as [Hn|i o Ht Hg|i o x Ha Hs Hp|i o x Ha Hp Hr|Hm Hx|Hm Hx]; subst; auto; exfalso; solve [exact (Hn _ _ T)|exact (Out _ _ _ Ha)|exact (NM Hm)].
  - change (token_of sa q id org) in T. rewrite C. assert (As : asks sa q id org a) by (split; assumption).
    assert (Uni : forall id' org' a', asks sa q id' org' a' -> id' = id /\ org' = org /\ a' = a) by (intros id' org' a' X; exact (asks_unique _ _ _ _ _ _ _ _ X As)).
    assert (There : forall id' org', token_of sa q id' org' -> ~ no_account (as_db sa) id').
    { intros id' org' T' G. destruct (token_unique _ _ _ _ _ _ T T') as (<- & <-). unfold no_account, account_is in *. congruence. }
    rewrite Ei.
    destruct (negb (takes_body (eq_ask q)) || eq_parses q) eqn:B.
    + assert (B' : sends (eq_ask q) -> eq_parses q = true).
      { rewrite <- sends_body. destruct (takes_body (eq_ask q)), (eq_parses q); cbn in B; intuition congruence. }
      pose proof (role_allowed id a org (eq_ask q)) as R. destruct (allowed _ _) eqn:Al.
      * assert (H : has_role a org (project_of (eq_ask q)) (lowest_role (eq_ask q))) by now apply R.
        assert (M : may_ask sa q) by (exists id, org, a; auto).
        right. split; [exact M|]. split; [reflexivity|]. intros s m. split.
        -- intros X. inversion X as [Hn|i o Ht Hg|i o x Ha Hs Hp|i o x Ha Hp Hr|Hm Hx|Hm Hx]; subst; auto; exfalso.
           ++ exact (Hn _ _ T).
           ++ exact (There _ _ Ht Hg).
           ++ specialize (B' Hs). congruence.
           ++ destruct (Uni _ _ _ Ha) as (-> & -> & ->). contradiction.
        -- intros [(-> & X)|(-> & X)]; [now apply not_there|now apply name_taken].
      * assert (H : ~ has_role a org (project_of (eq_ask q)) (lowest_role (eq_ask q))) by (intro X; apply R in X; discriminate).
        assert (NM : ~ may_ask sa q) by (intros (id' & org' & a' & X & _ & Y); destruct (Uni _ _ _ X) as (-> & -> & ->); contradiction).
        left. exists PForbidden, 403. split; [reflexivity|]. split; [reflexivity|]. split; [discriminate|]. split; [intro; eapply no_role; eassumption|]. split; [|exact NM].
        intros s m' X. inversion X as [Hn|i o Ht Hg|i o x Ha Hs Hp|i o x Ha Hp Hr|Hm Hx|Hm Hx]; subst; auto; exfalso.
        -- exact (Hn _ _ T).
        -- exact (There _ _ Ht Hg).
        -- specialize (B' Hs). congruence.
        -- exact (NM Hm).
        -- exact (NM Hm).
    + assert (B' : sends (eq_ask q) /\ eq_parses q = false).
      { rewrite <- sends_body. destruct (takes_body (eq_ask q)), (eq_parses q); cbn in B; try discriminate. auto. }
      destruct B' as (Bs & Bp).
      assert (NM : ~ may_ask sa q) by (intros (id' & org' & a' & _ & Y & _); specialize (Y Bs); congruence).
      left. exists PBadRequest, 400. split; [reflexivity|]. split; [reflexivity|]. split; [discriminate|].
      split; [intro; eapply bad_body; eassumption|]. split; [|exact NM].
      intros s m' X. inversion X as [Hn|i o Ht Hg|i o x Ha Hs Hp|i o x Ha Hp Hr|Hm Hx|Hm Hx]; subst; auto; exfalso.
      * exact (Hn _ _ T).
      * exact (There _ _ Ht Hg).
      * specialize (Hp Bs). congruence.
      * exact (NM Hm).
      * exact (NM Hm).
Qed.
(** The call itself. *)
Lemma same_event s s' p i : kg (DataKey p i) s' = kg (DataKey p i) s -> forall n d, is_event s' p i n d <-> is_event s p i n d.
Proof. intros E n d. rewrite !is_event_kg, E. reflexivity. Qed.
Lemma listed_events l : (forall v, In v l -> exists e, v = VRec (REvent e)) -> exists es, as_events l = Ok es
  /\ forall e', In e' es <-> exists e, In (VRec (REvent e)) l /\ e' = stored_event e.
Proof.
  induction l as [|v l IH]; intros H.
  - exists []. split; [reflexivity|]. intros e'. split; [intros []|intros (e & [] & _)].
  - destruct (H v (or_introl eq_refl)) as (e & ->). destruct IH as (es & E & X); [intros u Hu; apply H; now right|].
    exists (stored_event e :: es). cbn. rewrite E. split; [reflexivity|]. intros e'. rewrite X. split.
    + intros [<-|(e0 & H0 & ->)]; eauto.
    + intros (e0 & [[= <-]|H0] & ->); [now left|right; eauto].
Qed.
Lemma call_cases h k : Forall happening_ok h -> ~ by_name k ->
  let s := stored h in
  (missing s k /\ ~ taken s k /\ event_call k s = (inr (PMetadata MNotFound), s)) \/
  (taken s k /\ ~ missing s k /\ event_call k s = (inr (PMetadata MAlreadyExists), s)) \/
  (~ missing s k /\ ~ taken s k /\ exists y s', event_call k s = (inl y, s') /\ answers s s' k y
     /\ forall p i n d, is_event s p i n d -> (forall x, k <> EvUpdate p i x) -> k <> EvDelete p i -> is_event s' p i n d).
Proof.
  intros H NB s. destruct (stored_ok h H) as (I & T). fold s in I, T.
  destruct k as [p n d|p i|p n|p|p i d|p i x|p i x|p i]; cbn [event_call].
  - destruct (create_cases s p n d (I p) T) as [(Tk & E)|(Nt & i & s' & E & K0 & K1 & K2)]; rewrite E; cbn [lift]; [right; left|right; right].
    + split; [exact Tk|]. split; [cbn; auto|reflexivity].
    + split; [cbn; auto|]. split; [exact Nt|]. exists (YEvent (mkEvent i n d [])), s'. split; [reflexivity|]. split.
      * cbn. exists i. split; [reflexivity|]. split; [now apply no_event_kg|]. apply is_event_kg. eexists. split; [exact K1|auto].
      * intros p' i' n' d' He _ _. apply (same_event s); [|exact He]. apply K2. intros [= -> ->].
        apply is_event_kg in He as (e & He & _). congruence.
  - unfold read_event. destruct (read_cases s p i (I p)) as [(E & N)|(o & E & Ei & He & N)]; rewrite E; cbn [lift]; [left; cbn; auto|right; right].
    split; [exact N|]. split; [cbn; auto|]. eexists _, _. split; [reflexivity|]. split; [cbn; auto|auto].
  - exfalso. apply NB. do 2 eexists. reflexivity.
  - right; right. split; [cbn; auto|]. split; [cbn; auto|].
    destruct (stored_run h H) as (ops & W & E). fold s in E.
    assert (L : forall v, In v (event_list p s) <-> exists id, kg (DataKey p id) s = Some v) by (intros v; rewrite E; exact (list_ns snake ops (ens p) v W)).
    destruct (listed_events (event_list p s)) as (es & Ee & X).
    { intros v Hv. apply L in Hv as (id & Hv). destruct (ix_data _ _ _ (I p) _ _ Hv) as (r & ks & -> & K & _). destruct r; try discriminate. eauto. }
    rewrite Ee. cbn [lift]. eexists _, _. split; [reflexivity|]. split; [|auto]. cbn [answers]. intros i n d. rewrite X. split.
    + intros Hi. apply is_event_kg in Hi as (e & Hk & <- & <-). exists e. split; [apply L; eauto|].
      destruct (ix_data _ _ _ (I p) _ _ Hk) as (r & ks & [= <-] & K & _). cbn in K. injection K as <- _. reflexivity.
    + intros (e & He & Eq). apply L in He as (id & He). destruct (ix_data _ _ _ (I p) _ _ He) as (r & ks & [= <-] & K & _). cbn in K. injection K as K _.
      unfold stored_event in Eq. injection Eq as -> -> ->. rewrite K. apply is_event_kg. eauto.
  - destruct (update_cases' s p i d (I p)) as [(N & E)|[(Tk & E)|(N & Nt & o & e & s' & Eo & E & Ei & En & Ed & K1 & K2)]]; rewrite E; cbn [lift].
    + left. split; [exact N|]. split; [|reflexivity]. destruct d as [[z|]|]; cbn; auto. intros (X & _). contradiction.
    + right; left. split; [exact Tk|]. split; [|reflexivity]. cbn [missing]. destruct d as [[z|]|]; cbn in Tk; try contradiction. apply Tk.
    + right; right. split; [exact N|]. split; [exact Nt|]. eexists _, _. split; [reflexivity|]. split.
      * cbn [answers stored_event ev_id ev_name ev_display]. exists (ev_display o). rewrite En, Ed. split; [exists o; auto|]. split; [exact Ei|]. split; [reflexivity|].
        apply is_event_kg. eexists. split; [exact K1|]. cbn. now rewrite En, Ed.
      * intros p' i' n' d' He Hn _. apply (same_event s); [|exact He]. apply K2. intros [= -> ->]. now apply (Hn d).
  - destruct (attach_cases s p i x (I p)) as [(N & E)|(N & o & Eo & Ei & E & K1 & K2)]; rewrite E; cbn [lift]; [left; cbn; auto|right; right].
    split; [exact N|]. split; [cbn; auto|]. eexists _, _. split; [reflexivity|].
    assert (S' : is_event (snd (event_attach p i [x] s)) p i (ev_name o) (ev_display o)) by (apply is_event_kg; eexists; split; [exact K1|auto]).
    split.
    + cbn [answers ev_id ev_name ev_display ev_props]. split; [reflexivity|]. split; [exists o; auto|]. split; [exact S'|reflexivity].
    + intros p' i' n' d' He _ _. destruct (N.eq_dec p' p) as [->|Np]; [destruct (N.eq_dec i' i) as [->|Ni]|].
      * destruct He as (e & He & <- & <-). assert (e = o) by congruence. now subst e.
      * apply (same_event s); [|exact He]. apply K2. congruence.
      * apply (same_event s); [|exact He]. apply K2. congruence.
  - rewrite (detach_cases s p i x (I p)). left. cbn. auto.
  - destruct (delete_cases' s p i (I p)) as [(N & E)|(N & o & s' & Eo & E & K1 & K2)]; rewrite E; cbn [lift]; [left; cbn; auto|right; right].
    split; [exact N|]. split; [cbn; auto|]. eexists _, _. split; [reflexivity|]. split.
    + cbn [answers stored_event ev_name ev_display]. split; [exists o; auto|]. intros n' d' He. apply is_event_kg in He as (e & He & _). congruence.
    + intros p' i' n' d' He _ Hn. apply (same_event s); [|exact He]. apply K2. intros [= -> ->]. now apply Hn.
Qed.
Lemma respond_cases h q : Forall happening_ok h -> ~ by_name (eq_ask q) ->
  let s := stored h in
  (exists m, event_respond q (accounts h) s = ((m, None), s) /\ m <> 0 /\ forall m', refused (accounts h) s q m' <-> m' = m) \/
  (may_ask (accounts h) q /\ (forall m, ~ refused (accounts h) s q m) /\ exists y s', event_respond q (accounts h) s = ((success (eq_ask q), Some y), s')
     /\ answers s s' (eq_ask q) y /\ forall p i n d, is_event s p i n d -> (forall x, eq_ask q <> EvUpdate p i x) -> eq_ask q <> EvDelete p i -> is_event s' p i n d).
Proof.
  intros H NB s. destruct (accounts_inv h) as (n & I). unfold event_respond.
  destruct (handle_cases n _ q I NB) as [(e & m & X & Em & Nz & Rf & Un & _)|(M & X & Rf)]; rewrite X.
  - left. exists m. rewrite Em. split; [reflexivity|]. split; [exact Nz|]. intros m'. split; [apply Un|]. intros ->. apply Rf.
  - destruct (call_cases h (eq_ask q) H NB) as [(Mi & Nt & E)|[(Tk & Nm & E)|(Nm & Nt & y & s' & E & An & Fr)]]; unfold s in *; clear s; rewrite E.
    + left. exists 404. split; [reflexivity|]. split; [discriminate|]. intros m'. rewrite Rf. split; [intros [(-> & _)|(_ & Y)]; [reflexivity|contradiction]|auto].
    + left. exists 409. split; [reflexivity|]. split; [discriminate|]. intros m'. rewrite Rf. split; [intros [(_ & Y)|(-> & _)]; [contradiction|reflexivity]|auto].
    + right. split; [exact M|]. split; [intros m Y; apply Rf in Y as [(_ & Y)|(_ & Y)]; contradiction|]. eauto 6.
Qed.

(** ** C140 *)
(** Full statement: every request, one by name too, is refused for these reasons only, with these
    statuses, and otherwise carried out.  Proved: for all requests but those by name (see
    [C140_by_name_refuted]), in whatever history of account calls, requests and other calls; for
    detaching, "not there" is every case (see [C140_attached_lost_refuted]). *)
Theorem C140_refusals_partial : forall h q n, Forall happening_ok h -> ~ by_name (eq_ask q) ->
  let r := fst (event_respond q (accounts h) (stored h)) in
  (snd r = None /\ fst r = n) <-> refused (accounts h) (stored h) q n.
Proof.
  intros h q n H NB r. unfold r. destruct (respond_cases h q H NB) as [(m & E & Nz & Rf)|(M & Nr & y & s' & E & _)]; rewrite E; cbn [fst snd].
  - rewrite Rf. split; [now intros (_ & <-)|now intros ->].
  - split; [intros (X & _); discriminate|]. intros X. now apply Nr in X.
Qed.
(** What is answered is what was asked for; it was asked by somebody who may. *)
Theorem C140_answers : forall h q y, Forall happening_ok h ->
  let r := fst (event_respond q (accounts h) (stored h)) in
  snd r = Some y ->
  (fst r = 201 <-> exists p n d, eq_ask q = EvCreate p n d) /\ (fst r = 201 \/ fst r = 200) /\ may_ask (accounts h) q /\
  answers (stored h) (stored (h ++ [Asked q])%list) (eq_ask q) y.
Proof.
  intros h q y H r. unfold r. rewrite serve_snoc. cbn [serve_one snd].
  destruct (eq_ask q) as [p n d|p i|p n|p|p i d|p i x|p i x|p i] eqn:K;
    try (assert (NB : ~ by_name (eq_ask q)) by (rewrite K; intros (? & ? & ?); discriminate);
      destruct (respond_cases h q H NB) as [(m & E & _)|(M & Nr & y' & s' & E & An & _)]; rewrite E; cbn [fst snd]; [discriminate|]; intros [= <-]; rewrite K in *;
      (split; [split; [intros X; first [discriminate|do 3 eexists; reflexivity]|intros (? & ? & ? & X); first [discriminate|reflexivity]]|]);
      (split; [cbn; auto|]); split; [exact M|exact An]).
  unfold event_respond, event_handle. rewrite K. destruct (context_of _ _ _); discriminate.
Qed.
(** A request that is refused changes nothing; one that is carried out leaves every event but the
    one it changes or deletes as it was. *)
Theorem C140_only_that_event : forall h q, Forall happening_ok h ->
  (snd (fst (event_respond q (accounts h) (stored h))) = None -> after (h ++ [Asked q])%list = after h) /\
  forall p i n d, is_event (stored h) p i n d -> (forall x, eq_ask q <> EvUpdate p i x) -> eq_ask q <> EvDelete p i ->
    is_event (stored (h ++ [Asked q])%list) p i n d.
Proof.
  intros h q H. rewrite serve_snoc. cbn [serve_one snd].
  assert (B : by_name (eq_ask q) \/ ~ by_name (eq_ask q)) by (destruct (eq_ask q); try (right; intros (? & ? & ?); discriminate); left; do 2 eexists; reflexivity).
  destruct B as [(p & n & K)|NB].
  - assert (E : snd (event_respond q (accounts h) (stored h)) = stored h).
    { unfold event_respond, event_handle. rewrite K. destruct (context_of _ _ _); reflexivity. }
    rewrite E. split; [intros _; symmetry; apply surjective_pairing|auto].
  - destruct (respond_cases h q H NB) as [(m & E & _)|(M & Nr & y & s' & E & An & Fr)]; rewrite E; cbn [fst snd].
    + split; [intros _; symmetry; apply surjective_pairing|auto].
    + split; [discriminate|exact Fr].
Qed.
(** To somebody who may not ask the answer is the same whatever is stored. *)
Theorem C140_hidden : forall h q s1 s2, ~ may_ask (accounts h) q ->
  fst (event_respond q (accounts h) s1) = fst (event_respond q (accounts h) s2).
Proof.
  intros h q s1 s2 NM. destruct (accounts_inv h) as (n & I).
  assert (B : by_name (eq_ask q) \/ ~ by_name (eq_ask q)) by (destruct (eq_ask q); try (right; intros (? & ? & ?); discriminate); left; do 2 eexists; reflexivity).
  destruct B as [(p & nm & K)|NB].
  - unfold event_respond, event_handle. rewrite K. destruct (context_of _ _ _); reflexivity.
  - unfold event_respond. destruct (handle_cases n _ q I NB) as [(e & m & X & _)|(M & _)]; [now rewrite !X|contradiction].
Qed.
(** Nobody is ever shown an event by its name: whoever may ask, and whether or not there is one,
    the answer is the status of a failure of the server. *)
Theorem C140_by_name_refuted : forall h q p name, eq_ask q = EvByName p name -> may_ask (accounts h) q ->
  event_respond q (accounts h) (stored h) = ((500, None), stored h).
Proof.
  intros h q p name K (id & org & a & (T & A) & _). destruct (accounts_inv h) as (n & I).
  destruct (context_cases n (accounts h) (eq_now q) (eq_bearer q) true KProfile I) as [(No & _)|[(id' & org' & T' & G & _)|(id' & org' & a' & _ & _ & _ & C)]].
  - change (forall id org, ~ token_of (accounts h) q id org) in No. now apply No in T.
  - change (token_of (accounts h) q id' org') in T'. destruct (token_unique _ _ _ _ _ _ T T') as (<- & <-). unfold no_account, account_is in *. congruence.
  - unfold event_respond, event_handle. rewrite C, K. reflexivity.
Qed.
(** Attaching a property to an event is answered with the event and the property, but nothing is
    kept: afterwards the event is shown without it, to everyone; the property can be attached again
    and again; and nobody can detach one. *)
Theorem C140_attached_lost_refuted : forall h q p i x e, Forall happening_ok h -> eq_ask q = EvAttach p i x ->
  snd (fst (event_respond q (accounts h) (stored h))) = Some (YEvent e) ->
  ev_props e = [x] /\
  (forall q' e', eq_ask q' = EvGet p i -> snd (fst (event_respond q' (accounts (h ++ [Asked q])%list) (stored (h ++ [Asked q])%list))) = Some (YEvent e') -> ev_props e' = []) /\
  fst (event_respond q (accounts (h ++ [Asked q])%list) (stored (h ++ [Asked q])%list)) = (200, Some (YEvent e)) /\
  (forall q', eq_ask q' = EvDetach p i x -> snd (fst (event_respond q' (accounts (h ++ [Asked q])%list) (stored (h ++ [Asked q])%list))) = None).
Proof.
  intros h q p i x e H K R.
  assert (H' : Forall happening_ok (h ++ [Asked q])%list) by (apply Forall_app; split; [exact H|repeat constructor]).
  destruct (C140_answers h q _ H R) as (_ & _ & M & An). rewrite K in An. cbn [answers] in An. destruct An as (Ei & A1 & A2 & Pr).
  split; [exact Pr|]. split; [|split].
  - intros q' e' K' R'. unfold event_respond, event_handle in R'. rewrite K' in R'. destruct (context_of _ _ _); [|discriminate].
    cbn [path_fits negb takes_body orb] in R'. destruct (allowed _ _); [|discriminate]. cbn [event_call] in R'. unfold read_event in R'.
    destruct (event_by_id p i _); cbn in R'; [|discriminate]. injection R' as <-. reflexivity.
  - assert (NB : ~ by_name (eq_ask q)) by (rewrite K; intros (? & ? & ?); discriminate).
    assert (Sa : accounts (h ++ [Asked q])%list = accounts h) by (rewrite serve_snoc; reflexivity).
    destruct (respond_cases (h ++ [Asked q])%list q H' NB) as [(m & E & Nz & Rf)|(_ & _ & y & s' & E & An & _)].
    + exfalso. assert (X : refused (accounts (h ++ [Asked q])%list) (stored (h ++ [Asked q])%list) q m) by now apply Rf.
      rewrite Sa in X. destruct (accounts_inv h) as (n & I). destruct (handle_cases n _ q I NB) as [(? & ? & _ & _ & _ & _ & _ & NM)|(_ & _ & Rf')]; [contradiction|].
      apply Rf' in X as [(_ & X)|(_ & X)]; rewrite K in X; cbn in X; [|exact X]. eapply X; exact A2.
    + rewrite E. cbn [fst]. rewrite K in *. cbn [answers] in An. destruct y as [e'|l]; [|contradiction]. destruct An as (Ei' & B1 & _ & Pr').
      destruct A2 as (u & Eu & U1 & U2), B1 as (v & Ev & V1 & V2). assert (u = v) by congruence. subst v. f_equal. f_equal. f_equal. destruct e, e'. cbn in *. congruence.
  - intros q' K'. assert (NB : ~ by_name (eq_ask q')) by (rewrite K'; intros (? & ? & ?); discriminate).
    destruct (respond_cases (h ++ [Asked q])%list q' H' NB) as [(m & E & _)|(_ & _ & y & s' & E & An & _)]; rewrite E; [reflexivity|]. rewrite K' in An. contradiction.
Qed.
End Server.
(** ** Witness: as in [C138_witness], accounts 2, a reader, and 3, a member of project 7 (tokens 2
    and 4); an event was tracked in project 7, and the member makes another. *)
Definition C140_at (t : option nat) (k : Ask) : ERequest := mkERequest 1100 t true k.
Definition C140_h : list Happening :=
  [Account (OLogIn 1000 "admin@admin.com" "pw" None);
   Account (OAccCreate 1001 0 (mkCReq "pw" "rea@x.org" None false false None [] [(7, JReader)]) 0);
   Account (OAccCreate 1002 0 (mkCReq "pw" "mem@x.org" None false false None [] [(7, JMember)]) 0);
   Account (OMembership 2 [(1, OrgMember)]); Account (OMembership 3 [(1, OrgMember)]);
   Account (OOrganizations [(1, [2; 3])]);
   Account (OLogIn 1003 "rea@x.org" "pw" None); Account (OLogIn 1004 "mem@x.org" "pw" None);
   Other (OEventGetOrCreate 7 "Buy" None []); Asked (C140_at (Some 4%nat) (EvCreate 7 "Look" (Some "Looks"%string)))].
Definition C140_s := event_serve (fun _ => true) (fun _ _ => true) 900 604800 (fun x => x) C140_h (fresh [1] [2] "pw" 0).
Definition C140_say (q : ERequest) : N := fst (fst (event_respond q (fst C140_s) (snd C140_s))).
Example C140_witness : Forall happening_ok C140_h
  /\ is_event (snd C140_s) 7 1 "Buy" None /\ is_event (snd C140_s) 7 2 "Look" (Some "Looks"%string)
  /\ map C140_say [C140_at (Some 4%nat) (EvCreate 7 "Buy" None); C140_at (Some 4%nat) (EvCreate 7 "Sell" (Some "Looks"%string)); C140_at (Some 4%nat) (EvCreate 7 "Sell" None);
       C140_at (Some 2%nat) (EvGet 7 1); C140_at (Some 2%nat) (EvGet 7 3); C140_at (Some 2%nat) (EvGet 8 1); C140_at (Some 2%nat) (EvCreate 7 "Sell" None);
       C140_at (Some 4%nat) (EvUpdate 7 1 (Some (Some "Looks"%string))); C140_at (Some 4%nat) (EvUpdate 7 2 (Some (Some "Looks"%string))); C140_at (Some 4%nat) (EvDelete 7 1);
       C140_at (Some 0%nat) (EvDelete 7 1); C140_at (Some 4%nat) (EvAttach 7 1 5); C140_at (Some 4%nat) (EvDetach 7 1 5); C140_at (Some 2%nat) (EvByName 7 "Buy");
       C140_at None (EvList 7); mkERequest 1100 (Some 4%nat) false (EvCreate 7 "Sell" None)]
     = [409; 409; 201; 200; 404; 403; 403; 409; 200; 403; 200; 200; 404; 500; 401; 400]
  /\ snd (fst (event_respond (C140_at (Some 2%nat) (EvList 7)) (fst C140_s) (snd C140_s))) = Some (YEvents [mkEvent 1 "Buy" None []; mkEvent 2 "Look" (Some "Looks"%string) []]).
Proof.
  split; [repeat constructor|]. split; [eexists; split; [vm_compute; reflexivity|split; reflexivity]|]. split; [eexists; split; [vm_compute; reflexivity|split; reflexivity]|].
  split; vm_compute; reflexivity.
Qed.
Print Assumptions C140_refusals_partial.
Print Assumptions C140_answers.
Print Assumptions C140_only_that_event.
Print Assumptions C140_hidden.
Print Assumptions C140_by_name_refuted.
Print Assumptions C140_attached_lost_refuted.
