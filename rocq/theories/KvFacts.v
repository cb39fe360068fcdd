(** Facts about the metadata store: reads after writes, listing, and the keys a listing
    touches. *)
From Coq Require Import List NArith String Ascii Bool Lia Permutation Sorted DecimalString.
From Verif Require Import AMap Order ListFacts Kv KvKeys KvKeysFacts.
Import ListNotations.
Local Open Scope string_scope.

Section Facts.
Context {A : Type}.
Notation Store := (list (string * Val A)).

Lemma kget_kput k k' (v : Val A) s : kget k (kput k' v s) = if String.eqb k k' then Some v else kget k s.
Proof.
  unfold kget, kput. rewrite aget_aset. destruct (string_dec k k') as [->|N].
  - now rewrite String.eqb_refl.
  - apply String.eqb_neq in N. now rewrite N.
Qed.
Lemma kget_kdel k k' (s : Store) : kget k (kdel k' s) = if String.eqb k k' then None else kget k s.
Proof.
  unfold kget, kdel. rewrite aget_adel. destruct (string_dec k k') as [->|N].
  - now rewrite String.eqb_refl.
  - apply String.eqb_neq in N. now rewrite N.
Qed.
Lemma kget_kput_eq k (v : Val A) s : kget k (kput k v s) = Some v.
Proof. now rewrite kget_kput, String.eqb_refl. Qed.
Lemma kget_kput_ne k k' (v : Val A) s : k <> k' -> kget k (kput k' v s) = kget k s.
Proof. intros N. rewrite kget_kput. apply String.eqb_neq in N. now rewrite N. Qed.
Lemma kget_kdel_eq k (s : Store) : kget k (kdel k s) = None.
Proof. now rewrite kget_kdel, String.eqb_refl. Qed.
Lemma kget_kdel_ne k k' (s : Store) : k <> k' -> kget k (kdel k' s) = kget k s.
Proof. intros N. rewrite kget_kdel. apply String.eqb_neq in N. now rewrite N. Qed.

(** Keys are stored once. *)
Definition kwf (s : Store) : Prop := NoDup (map fst s).
Lemma kwf_nil : kwf [].
Proof. constructor. Qed.
Lemma kdel_keys k (s : Store) x : In x (map fst (kdel k s)) <-> In x (map fst s) /\ x <> k.
Proof.
  unfold kdel. change (map fst (adel string_dec k s)) with (akeys (adel string_dec k s)). rewrite akeys_adel.
  split.
  - intros H. apply in_remove in H. exact H.
  - intros [H1 H2]. now apply in_in_remove.
Qed.
Lemma kwf_kdel k s : kwf s -> kwf (kdel k s).
Proof.
  unfold kwf, kdel. intros H. change (NoDup (akeys (adel string_dec k s))). rewrite akeys_adel.
  change (map fst s) with (akeys s) in H. induction (akeys s) as [|x l IH]; cbn; [constructor|].
  inversion H as [|? ? H1 H2]; subst. destruct (string_dec k x); [now apply IH|].
  constructor; [|now apply IH]. intros I. apply in_remove in I. tauto.
Qed.
Lemma kwf_kput k v s : kwf s -> kwf (kput k v s).
Proof.
  intros H. unfold kwf, kput, aset. cbn [map fst]. constructor.
  - intros I. apply (kdel_keys k s) in I. tauto.
  - exact (kwf_kdel k s H).
Qed.
Lemma kget_In k (v : Val A) s : kwf s -> kget k s = Some v <-> In (k, v) s.
Proof.
  unfold kwf, kget. induction s as [|[k' v'] r IH]; cbn; intros H; [split; [discriminate|contradiction]|].
  inversion H as [|? ? H1 H2]; subst. specialize (IH H2). destruct (string_dec k k') as [->|N].
  - split.
    + intros E. injection E as ->. now left.
    + intros [E|I]; [congruence|]. exfalso. apply H1. apply (in_map fst) in I. exact I.
  - rewrite IH. split; [now right|]. intros [E|I]; [congruence|exact I].
Qed.

(** ** Prefixes and the order of keys *)
Lemma codes_app a b : codes (a ++ b) = (codes a ++ codes b)%list.
Proof. unfold codes. induction a; cbn; [reflexivity|now f_equal]. Qed.
Lemma codes_inj a b : codes a = codes b -> a = b.
Proof.
  unfold codes. revert b. induction a as [|c a IH]; destruct b as [|c' b]; cbn; try discriminate; auto.
  intros E. injection E as E1 E2. f_equal; [|auto].
  rewrite <- (ascii_N_embedding c), <- (ascii_N_embedding c'). now rewrite E1.
Qed.
Lemma key_cmp_total : TotalCmp key_cmp.
Proof. unfold key_cmp. apply code_total; [apply lex_total, Ncmp_total|exact codes_inj]. Qed.
Lemma prefix_spec p s : String.prefix p s = true <-> exists r, s = p ++ r.
Proof.
  revert s. induction p as [|c p IH]; intros s.
  - split; [exists s; reflexivity|destruct s; reflexivity].
  - destruct s as [|c' s].
    + cbn. split; [discriminate|intros [r E]; discriminate].
    + cbn. destruct (ascii_dec c c') as [->|N].
      * rewrite IH. split; intros [r E]; exists r; congruence.
      * split; [discriminate|intros [r E]; congruence].
Qed.

Lemma lex_app_ge (p r : list N) : lex_cmp N.compare p (p ++ r) <> Gt.
Proof.
  induction p as [|x p IH]; cbn; [destruct r; discriminate|]. now rewrite N.compare_refl.
Qed.
(** A key not below [p] that does not extend [p] is above every extension of [p]. *)
Lemma lex_ext_lt (p k r : list N) :
  lex_cmp N.compare p k <> Gt -> (forall q, k <> (p ++ q)%list) -> lex_cmp N.compare (p ++ r) k = Lt.
Proof.
  revert k. induction p as [|x p IH]; intros k H N; cbn in *.
  - exfalso. now apply (N k).
  - destruct k as [|y k]; [congruence|]. destruct (N.compare x y) eqn:C; try congruence.
    apply N.compare_eq in C as ->. apply IH; [exact H|]. intros q ->. now apply (N q).
Qed.
Lemma key_leb_le a b : key_leb a b = true <-> key_cmp a b <> Gt.
Proof. unfold key_leb. destruct (key_cmp a b); split; congruence. Qed.
Lemma prefix_le p k : String.prefix p k = true -> key_leb p k = true.
Proof.
  intros H. apply prefix_spec in H as [r ->]. apply key_leb_le. unfold key_cmp. rewrite codes_app. apply lex_app_ge.
Qed.
Lemma not_prefix_above p k k' :
  key_leb p k = true -> String.prefix p k = false -> key_cmp k k' <> Gt -> String.prefix p k' = false.
Proof.
  intros H1 H2 H3. destruct (String.prefix p k') eqn:E; [|reflexivity]. exfalso.
  apply prefix_spec in E as [r ->]. apply key_leb_le in H1. apply H3.
  unfold key_cmp in *. rewrite codes_app.
  assert (L : lex_cmp N.compare (codes p ++ codes r) (codes k) = Lt).
  { apply lex_ext_lt; [exact H1|]. intros q E.
    assert (P : String.prefix p k = true).
    { apply prefix_spec. clear - E. revert k E. induction p as [|c p IH]; intros k E.
      - exists k. reflexivity.
      - destruct k as [|c' k]; [discriminate|]. cbn in E. injection E as E1 E2.
        destruct (IH k E2) as [r Hr]. exists r. cbn. f_equal; [|exact Hr].
        rewrite <- (ascii_N_embedding c), <- (ascii_N_embedding c'). now rewrite E1. }
    congruence. }
  rewrite (tc_anti _ (lex_total _ Ncmp_total)). now rewrite L.
Qed.

Lemma filter_filter {B} (f g : B -> bool) l : filter f (filter g l) = filter (fun x => g x && f x) l.
Proof. induction l as [|x l IH]; cbn; [reflexivity|]. destruct (g x); cbn; rewrite IH; reflexivity. Qed.

(** Seeking and stopping at the first key without the prefix yields all keys with it. *)
Lemma take_while_filter p (l : Store) :
  sorted_by key_cmp fst l -> (forall x, In x l -> key_leb p (fst x) = true) ->
  take_while (fun kv => String.prefix p (fst kv)) l = filter (fun kv => String.prefix p (fst kv)) l.
Proof.
  intros S. induction S as [|x l S IH F]; cbn; intros B; [reflexivity|].
  destruct (String.prefix p (fst x)) eqn:E.
  - f_equal. apply IH. auto.
  - symmetry. rewrite Forall_forall in F.
    assert (Z : forall y, In y l -> String.prefix p (fst y) = false).
    { intros y Iy. apply not_prefix_above with (k := fst x); [apply B; now left|exact E|]. now apply F. }
    clear - Z. induction l as [|y l IH]; cbn; [reflexivity|]. rewrite Z by now left.
    apply IH. intros z Iz. apply Z. now right.
Qed.
Lemma sorted_filter (f : string * Val A -> bool) l : sorted_by key_cmp fst l -> sorted_by key_cmp fst (filter f l).
Proof.
  intros S. induction S as [|x l S IH F]; cbn; [constructor|].
  destruct (f x); [|exact IH]. constructor; [exact IH|].
  rewrite Forall_forall in *. intros y Iy. apply filter_In in Iy as [Iy _]. auto.
Qed.
Lemma ordered_sorted (s : Store) : sorted_by key_cmp fst (ordered s).
Proof. apply sort_by_sorted. apply key_cmp_total. Qed.
Lemma ordered_perm (s : Store) : Permutation s (ordered s).
Proof. apply sort_by_perm. Qed.

Theorem list_prefix_filter p (s : Store) :
  list_prefix p s = map snd (filter (fun kv => String.prefix p (fst kv)) (ordered s)).
Proof.
  unfold list_prefix, seek. f_equal. rewrite take_while_filter.
  - rewrite filter_filter. apply filter_ext. intros [k v]. cbn.
    destruct (String.prefix p k) eqn:E; [|now rewrite andb_false_r]. now rewrite (prefix_le _ _ E).
  - apply sorted_filter, ordered_sorted.
  - intros x I. apply filter_In in I. tauto.
Qed.
Lemma list_prefix_In p (s : Store) v : kwf s ->
  In v (list_prefix p s) <-> exists k, kget k s = Some v /\ String.prefix p k = true.
Proof.
  intros W. rewrite list_prefix_filter, in_map_iff. split.
  - intros [[k v'] [E I]]. cbn in E. subst v'. apply filter_In in I as [I P]. exists k. split; [|exact P].
    apply kget_In; [exact W|]. eapply Permutation_in; [symmetry; apply ordered_perm|exact I].
  - intros [k [G P]]. exists (k, v). split; [reflexivity|]. apply filter_In. split; [|exact P].
    apply kget_In in G; [|exact W]. eapply Permutation_in; [apply ordered_perm|exact G].
Qed.
Lemma list_data_filter ns (s : Store) : list_data ns s = list_prefix (make_data_key ns) s.
Proof.
  unfold list_data. rewrite list_prefix_filter. unfold seek.
  rewrite filter_filter. f_equal. apply filter_ext. intros [k v]. cbn.
  assert (E : key_leb "" k = true) by (apply prefix_le; destruct k; reflexivity). now rewrite E.
Qed.
End Facts.

(** ** Which keys a listing reads *)
Lemma split1_app c r : no_slash c = true -> split1 (c ++ r) = (c ++ fst (split1 r), snd (split1 r)).
Proof.
  induction c as [|x c IH]; cbn [append split1 no_slash]; intros H.
  - destruct (split1 r). reflexivity.
  - apply andb_true_iff in H as [H1 H2]. apply negb_true_iff in H1. rewrite H1. now rewrite (IH H2).
Qed.

Lemma parse_tail_data_only ns r k : parse_tail ns ("data" ++ r) = Some k -> exists id, k = KData ns id.
Proof.
  unfold parse_tail. rewrite split1_app by reflexivity. destruct (split1 r) as [a o]. cbn [fst snd].
  destruct a as [|c a]; cbn [append].
  - destruct o as [d|]; [|discriminate]. destruct (parse_num d); cbn; [|discriminate]. intros E. injection E as <-. eauto.
  - destruct o; discriminate.
Qed.
Lemma parse_num_d r : parse_num (String "d" r) = None.
Proof. unfold parse_num. cbn. destruct (NilEmpty.uint_of_string r); reflexivity. Qed.
Lemma parse_root_d (r : string) ns :
  match split1 ("data" ++ r) with
  | (b, Some r2) => match parse_num b with None => parse_tail ns ("data" ++ r) | Some _ => None end
  | _ => None
  end = parse_tail ns ("data" ++ r).
Proof.
  unfold parse_tail. rewrite split1_app by reflexivity. destruct (split1 r) as [a [o|]]; cbn [fst snd].
  - cbn [append]. now rewrite parse_num_d.
  - cbn [append]. destruct a; reflexivity.
Qed.
Lemma parse_ns_data ns r : parse (ns_str ns ++ "/data" ++ r) = parse_tail ns ("data" ++ r).
Proof.
  destruct ns as [[]|p k|o]; cbn [ns_str root_str].
  - reflexivity.
  - transitivity (match split1 ("data" ++ r) with
      | (b, Some r2) => match parse_num b with None => parse_tail (NRoot ROrganizations) ("data" ++ r) | Some _ => None end
      | _ => None end); [|apply parse_root_d].
    unfold parse. change ("organizations" ++ "/data" ++ r) with ("organizations" ++ String slash ("data" ++ r)).
    rewrite split1_sep by reflexivity.
    change (String.eqb "organizations" "accounts") with false. change (String.eqb "organizations" "system") with false.
    change (String.eqb "organizations" "organizations") with true. cbn iota.
    rewrite split1_app by reflexivity. destruct (split1 r) as [a [x|]]; cbn [fst snd]; [|reflexivity].
    cbn [append]. now rewrite parse_num_d.
  - transitivity (match split1 ("data" ++ r) with
      | (b, Some r2) => match parse_num b with None => parse_tail (NRoot RProjects) ("data" ++ r) | Some _ => None end
      | _ => None end); [|apply parse_root_d].
    unfold parse. change ("projects" ++ "/data" ++ r) with ("projects" ++ String slash ("data" ++ r)).
    rewrite split1_sep by reflexivity.
    change (String.eqb "projects" "accounts") with false. change (String.eqb "projects" "system") with false.
    change (String.eqb "projects" "organizations") with false. change (String.eqb "projects" "projects") with true. cbn iota.
    rewrite split1_app by reflexivity. destruct (split1 r) as [a [x|]]; cbn [fst snd]; [|reflexivity].
    cbn [append]. now rewrite parse_num_d.
  - reflexivity.
  - unfold project_ns. rewrite !app_assoc_s. change ("/data" ++ r) with ("/" ++ "data" ++ r). rewrite parse_project.
    apply parse_proj_tail. discriminate.
  - unfold org_ns. rewrite !app_assoc_s. unfold parse.
    change ("organizations/" ++ dec o ++ "/" ++ "teams" ++ "/data" ++ r)
      with ("organizations" ++ String slash (dec o ++ String slash ("teams" ++ String slash ("data" ++ r)))).
    rewrite split1_sep by reflexivity.
    change (String.eqb "organizations" "accounts") with false. change (String.eqb "organizations" "system") with false.
    change (String.eqb "organizations" "organizations") with true. cbn iota.
    rewrite split1_sep by apply dec_no_slash. rewrite parse_dec.
    rewrite split1_sep by reflexivity. reflexivity.
Qed.
Lemma data_prefix_key ns k : wf_key k = true ->
  String.prefix (make_data_key (ns_str ns)) (render k) = true <-> exists id, k = KData ns id.
Proof.
  intros W. split.
  - intros P. apply prefix_spec in P as [r E]. apply (f_equal parse) in E. rewrite parse_render in E by exact W.
    unfold make_data_key in E. rewrite app_assoc_s, parse_ns_data in E. symmetry in E. now apply parse_tail_data_only in E.
  - intros [id ->]. cbn [render]. apply prefix_spec. exists ("/" ++ dec id). unfold make_data_value_key, make_data_key.
    now rewrite app_assoc_s.
Qed.
Lemma session_prefix_key p k : wf_key k = true ->
  String.prefix (make_data_key (project_ns p "sessions")) (render k) = true <-> exists u, k = KSession p u.
Proof.
  intros W. split.
  - intros P. apply prefix_spec in P as [r E]. apply (f_equal parse) in E. rewrite parse_render in E by exact W.
    unfold make_data_key, project_ns in E. rewrite !app_assoc_s, parse_project in E. unfold parse_proj in E.
    change ("sessions" ++ "/data" ++ r) with ("sessions" ++ String slash ("data" ++ r)) in E.
    rewrite split1_sep in E by reflexivity.
    repeat match type of E with context [String.eqb "sessions" ?c] =>
      let v := eval compute in (String.eqb "sessions" c) in change (String.eqb "sessions" c) with v in E end.
    cbn iota in E. rewrite drop_prefix_app in E. cbn [obind] in E.
    destruct (parse_num r); [|discriminate]. injection E as ->. eauto.
  - intros [u ->]. cbn [render]. apply prefix_spec. exists (dec u). unfold session_key, make_data_key.
    now rewrite !app_assoc_s.
Qed.
