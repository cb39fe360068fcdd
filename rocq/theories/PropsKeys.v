(** Properties C25, C28, C29 and C39: sequences, separation of keys, listings. *)
From Coq Require Import List NArith ZArith String Ascii Bool Lia.
From Verif Require Import AMap Kv KvKeys KvKeysFacts KvFacts Md MdOps MdFrame MdIndex MdEntities MdWf MdDict MdSeq.
Import ListNotations.
Local Open Scope string_scope.

(** ** C25: a sequence hands out first, first + 1, first + 2, ...; what other sequences are
    asked in between does not matter.  [l] says which sequence each allocation uses. *)
Theorem C25_sequence_consecutive :
  forall (first : Key -> N) (l : list Key) (k : Key),
    wf_key k = true -> Forall (fun k => wf_key k = true) l ->
    given k (fst (allocate first l [])) =
    map (fun i => Ok (first k + N.of_nat i)%N) (seq 0 (asked k l)).
Proof.
  intros first l k W F. exact (allocate_from first k l W F [] None eq_refl (or_introl eq_refl)).
Qed.
Print Assumptions C25_sequence_consecutive.
Example C25_sequence_consecutive_witness :
  let a := KSeq (NProj 1 PEvents) in let b := KOrderSeq 1 "str" in
  map snd (fst (allocate (fun k => if key_dec k b then 0 else 1)%N [a; b; a; a; b] []))
  = [Ok 1; Ok 0; Ok 2; Ok 3; Ok 1]%N.
Proof. vm_compute. reflexivity. Qed.

(** Any two create calls of one kind and project anywhere in a history of calls: the later
    one gets the larger id, also if the earlier record was deleted in the meantime. *)
Theorem C25_created_ids_increase :
  forall snake before o1 between o2 ns id1 id2,
    forallb wf_op (before ++ o1 :: between ++ [o2]) = true ->
    let s0 := md_run snake before [] in
    let s1 := md_run snake (o1 :: between) s0 in
    created snake o1 s0 = Some (ns, id1) -> created snake o2 s1 = Some (ns, id2) ->
    (id1 < id2)%N.
Proof.
  intros snake before o1 between o2 ns id1 id2 W s0 s1 H1 H2.
  rewrite forallb_app in W. cbn [forallb] in W. rewrite forallb_app in W.
  apply andb_prop in W as [_ W]. apply andb_prop in W as [W1 W]. apply andb_prop in W as [W2 _].
  destruct (created_makes _ _ _ _ _ H1) as [S1 _].
  destruct (md_run_seq_up snake between _ ns id1 W2 S1) as (m & Sm & L).
  destruct (created_makes _ _ _ _ _ H2) as [_ G]. specialize (G m).
  change s1 with (md_run snake between (md_step snake o1 s0)) in G. specialize (G Sm). lia.
Qed.
Print Assumptions C25_created_ids_increase.
Example C25_created_ids_increase_witness :
  let o := OEventCreate 1 "a" None [] in
  let s1 := md_run (fun x => x) [o; OEventDelete 1 1] [] in
  created (fun x => x) o [] = Some (NProj 1 PEvents, 1%N) /\
  created (fun x => x) o s1 = Some (NProj 1 PEvents, 2%N).
Proof. vm_compute. split; reflexivity. Qed.

(** ** C29: different entities have different keys.  [Key] lists every kind of stored item
    with its project, id or name. *)
Theorem C29_keys_distinct :
  forall a b, wf_key a = true -> wf_key b = true -> a <> b -> render a <> render b.
Proof. intros a b Wa Wb N E. apply N. now apply render_inj. Qed.
Print Assumptions C29_keys_distinct.

(** No call writes a key outside its own family (project, kind of record). *)
Theorem C29_calls_stay_in_their_family :
  forall snake o s k, wf_op o = true -> wf_key k = true -> ~ touches o k ->
    kget (render k) (md_step snake o s) = kget (render k) s.
Proof. intros snake o s k Wo Wk N. exact (only_kg _ _ _ k (md_frame snake o s Wo) Wk N). Qed.
Print Assumptions C29_calls_stay_in_their_family.

(** Listing a namespace after any history returns its records and nothing else. *)
Theorem C29_listing_only_own :
  forall snake ops ns v, forallb wf_op ops = true ->
    In v (list_prefix (make_data_key (ns_str ns)) (md_run snake ops [])) <->
    exists id, kget (render (KData ns id)) (md_run snake ops []) = Some v.
Proof. intros snake ops ns v W. exact (list_ns snake ops ns v W). Qed.
Print Assumptions C29_listing_only_own.
(** Projects 1 and 11, whose keys share a prefix, and records of a second kind. *)
Example C29_listing_only_own_witness :
  let s := md_run (fun x => x) [OEventCreate 1 "a" None []; OEventCreate 11 "b" None [];
             OEventCreate 1 "c" None []; OCustomCreate 1 "z" [RefName "a"]; OEventDelete 1 1] [] in
  list_prefix (make_data_key (ns_str (NProj 1 PEvents))) s = [VRec (REvent (mkEvent 2 "c" None []))].
Proof. vm_compute. reflexivity. Qed.

(** The condition on keys matters: with '/' allowed in a column name two dictionary entries
    share a key. *)
Theorem C29_slash_refuted :
  exists a b, a <> b /\ render a = render b.
Proof.
  exists (KDictVal 1 "events" "c" "a/values/b"), (KDictVal 1 "events" "c/values/a" "b").
  split; [discriminate|reflexivity].
Qed.
Print Assumptions C29_slash_refuted.

(** ** C28: dictionaries are independent *)
Theorem C28_dictionaries_independent :
  forall p t d p' t' d' s v,
    no_slash t && no_slash d = true -> no_slash t' && no_slash d' = true ->
    (p, t, d) <> (p', t', d') ->
    let s' := snd (dict_get_or_create p t d v s) in
    (forall w, dict_key p' t' d' w s' = dict_key p' t' d' w s) /\
    (forall n, dict_value p' t' d' n s' = dict_value p' t' d' n s) /\
    (forall w, fst (dict_get_or_create p' t' d' w s') = fst (dict_get_or_create p' t' d' w s)).
Proof.
  intros p t d p' t' d' s v W W' N s'.
  assert (O : only (in_dict p t d) s s') by (apply dict_frame; auto).
  assert (EK : forall n, kget (make_key_key p' (tbl_dict t' d') n) s' = kget (make_key_key p' (tbl_dict t' d') n) s).
  { intro n. apply (only_kg _ _ _ (KDictKey p' t' d' n) O W'). cbn. intros (-> & -> & ->). now apply N. }
  assert (EV : forall n, kget (make_value_key p' (tbl_dict t' d') n) s' = kget (make_value_key p' (tbl_dict t' d') n) s).
  { intro n. apply (only_kg _ _ _ (KDictVal p' t' d' n) O W'). cbn. intros (-> & -> & ->). now apply N. }
  assert (ES : kget (make_id_seq_key (project_ns p' (dict_ns (tbl_dict t' d')))) s'
             = kget (make_id_seq_key (project_ns p' (dict_ns (tbl_dict t' d')))) s).
  { apply (only_kg _ _ _ (KDictSeq p' t' d') O W'). cbn. intros (-> & -> & ->). now apply N. }
  split; [|split].
  - intro w. unfold dict_key. now rewrite EV.
  - intro n. unfold dict_value. now rewrite EK.
  - intro w. unfold dict_get_or_create. rewrite EV. destruct (kget (make_value_key p' (tbl_dict t' d') w) s) as [y|]; [destruct (read_num y); reflexivity|].
    unfold next_seq, next_from. rewrite ES. destruct (kget _ s) as [x|]; [destruct (read_num x); reflexivity|reflexivity].
Qed.
Print Assumptions C28_dictionaries_independent.
Example C28_dictionaries_independent_witness :
  let s := snd (dict_get_or_create 1 "events" "e_str_0" "x" []) in
  let s' := snd (dict_get_or_create 1 "events" "e_str_1" "y" s) in
  dict_key 1 "events" "e_str_0" "x" s' = Ok 1%N /\ dict_key 1 "events" "e_str_1" "x" s' = Err NotFound
  /\ dict_value 1 "events" "e_str_1" 1 s' = Ok "y".
Proof. vm_compute. repeat split. Qed.

(** The names the condition of C28 asks for are those the code forms: every column name is
    free of '/', provided that the case conversion does not introduce one. *)
Lemma strip_no_slash x : no_slash (strip_name x) = true.
Proof.
  induction x as [|c r IH]; cbn [strip_name]; [reflexivity|]. destruct (kept_char c) eqn:K; [|exact IH].
  cbn [no_slash]. rewrite IH, andb_true_r. destruct (Ascii.eqb_spec c slash) as [->|]; [discriminate K|reflexivity].
Qed.
Theorem C28_column_names_have_no_slash :
  forall snake, (forall x, no_slash x = true -> no_slash (snake x) = true) ->
  forall pr, no_slash (column_name snake pr) = true.
Proof.
  intros snake HS [id kd name dn order t sys]. unfold column_name. cbn [pp_system pp_kind pp_type pp_order pp_name].
  destruct sys; [apply HS, strip_no_slash|].
  assert (D : forall n, no_slash (dec n) = true) by apply dec_no_slash.
  assert (A : forall a b, no_slash a = true -> no_slash b = true -> no_slash (a ++ b) = true).
  { induction a as [|c r IH]; cbn; intros b Ha Hb; [exact Hb|]. apply andb_prop in Ha as [H1 H2]. rewrite H1. cbn. auto. }
  destruct kd as [|g]; repeat (apply A; auto); destruct t as [[]|[]]; reflexivity.
Qed.
Print Assumptions C28_column_names_have_no_slash.

(** ** C39: listings are complete *)
(** Every kind of record but teams, after any history: the listing is exactly the set of
    stored records. *)
Theorem C39_listing_complete_partial :
  forall snake ops ns v, forallb wf_op ops = true -> (forall o, ns <> NTeams o) ->
    In v (list_prefix (make_data_key (ns_str ns)) (md_run snake ops [])) <->
    exists id, kget (make_data_value_key (ns_str ns) id) (md_run snake ops []) = Some v.
Proof. intros snake ops ns v W _. exact (list_ns snake ops ns v W). Qed.
Print Assumptions C39_listing_complete_partial.

(** Each record is listed once. *)
Lemma list_prefix_NoDup p (s : Store) : kwf s ->
  List.length (list_prefix p s) = List.length (filter (fun kv => String.prefix p (fst kv)) s).
Proof.
  intro K. rewrite list_prefix_filter. rewrite map_length.
  apply Permutation.Permutation_length. apply ListFacts.Permutation_filter.
  apply Permutation.Permutation_sym, ordered_perm.
Qed.
Theorem C39_listed_once :
  forall snake ops ns, forallb wf_op ops = true ->
    let s := md_run snake ops [] in
    List.length (list_prefix (make_data_key (ns_str ns)) s)
    = List.length (filter (fun kv => String.prefix (make_data_key (ns_str ns)) (fst kv)) s) /\ NoDup (map fst s).
Proof. intros snake ops ns W s. split; [apply list_prefix_NoDup|]; apply md_run_kwf, kwf_nil. Qed.
Print Assumptions C39_listed_once.

(** Teams: the listing never has more than one entry, so with two teams it is incomplete,
    whatever else is stored. *)
Theorem C39_teams_refuted :
  forall o (s : Store), (List.length (team_list o s) <= 1)%nat /\
    forall id1 id2 t1 t2, kget (make_data_value_key (teams_ns o) id1) s = Some (VRec (RTeam t1)) ->
      kget (make_data_value_key (teams_ns o) id2) s = Some (VRec (RTeam t2)) -> t1 <> t2 ->
      ~ (In (VRec (RTeam t1)) (team_list o s) /\ In (VRec (RTeam t2)) (team_list o s)).
Proof.
  intros o s.
  assert (L : (List.length (team_list o s) <= 1)%nat).
  { unfold team_list, list_first. rewrite map_length. generalize (seek (make_data_key (teams_ns o)) s) as l.
    induction l as [|x r IH]; cbn; [lia|]. destruct (String.prefix _ _); cbn; lia. }
  split; [exact L|]. intros id1 id2 t1 t2 _ _ N [H1 H2].
  destruct (team_list o s) as [|a [|b r]]; cbn in *; [contradiction| |lia].
  destruct H1 as [E1|[]], H2 as [E2|[]]. congruence.
Qed.
Print Assumptions C39_teams_refuted.
Example C39_teams_refuted_witness :
  let s := md_run (fun x => x) [OTeamCreate 1 "red"; OTeamCreate 1 "blue"] [] in
  kget (make_data_value_key (teams_ns 1) 1) s = Some (VRec (RTeam (mkTeam 1 1 "red"))) /\
  kget (make_data_value_key (teams_ns 1) 2) s = Some (VRec (RTeam (mkTeam 2 1 "blue"))) /\
  team_list 1 s = [VRec (RTeam (mkTeam 1 1 "red"))].
Proof. vm_compute. repeat split. Qed.
(** What the listing of teams does return belongs to the organization. *)
Theorem C39_teams_listed_partial :
  forall snake ops o v, forallb wf_op ops = true -> In v (team_list o (md_run snake ops [])) ->
    exists id, kget (make_data_value_key (teams_ns o) id) (md_run snake ops []) = Some v.
Proof.
  intros snake ops o v W H. apply (list_ns snake ops (NTeams o) v W).
  apply list_prefix_In; [apply md_run_kwf, kwf_nil|].
  unfold team_list, list_first in H. apply in_map_iff in H as ((k & v') & <- & H). exists k.
  change (make_data_key (teams_ns o)) with (make_data_key (ns_str (NTeams o))) in H.
  assert (G : forall l, In (k, v') (first_match (fun kv : string * Val Rec => String.prefix (make_data_key (ns_str (NTeams o))) (fst kv)) l) ->
     In (k, v') l /\ String.prefix (make_data_key (ns_str (NTeams o))) k = true).
  { induction l as [|x r IH]; cbn [first_match]; [contradiction|]. destruct (String.prefix _ (fst x)) eqn:E.
    - intros [->|[]]. split; [now left|exact E].
    - intro I. destruct (IH I). split; [now right|assumption]. }
  apply G in H as [H P]. split; [|exact P]. unfold seek in H. apply filter_In in H as [H _].
  apply kget_In; [apply md_run_kwf, kwf_nil|].
  eapply Permutation.Permutation_in; [apply Permutation.Permutation_sym, ordered_perm|exact H].
Qed.
Print Assumptions C39_teams_listed_partial.
