(** Rendered keys of different kinds or arguments are different strings. *)
From Coq Require Import List NArith String Ascii Bool Lia DecimalString DecimalFacts DecimalPos DecimalN.
From Verif Require Import Kv KvKeys.
Import ListNotations.
Local Open Scope string_scope.

Lemma app_assoc_s a b c : (a ++ b) ++ c = a ++ b ++ c.
Proof. induction a; cbn; [reflexivity|now f_equal]. Qed.
Lemma app_nil_s a : a ++ "" = a.
Proof. induction a; cbn; [reflexivity|now f_equal]. Qed.
Lemma length_app_s a b : String.length (a ++ b) = String.length a + String.length b.
Proof. induction a; cbn; auto. Qed.

Lemma no_slash_app a b : no_slash (a ++ b) = no_slash a && no_slash b.
Proof. induction a as [|c a IH]; cbn; [reflexivity|]. rewrite IH. now rewrite andb_assoc. Qed.

Lemma split1_sep a b : no_slash a = true -> split1 (a ++ String slash b) = (a, Some b).
Proof.
  induction a as [|c a IH]; cbn [append split1 no_slash]; intros H.
  - reflexivity.
  - apply andb_true_iff in H as [H1 H2]. apply negb_true_iff in H1. rewrite H1.
    now rewrite (IH H2).
Qed.
Lemma split1_none a : no_slash a = true -> split1 a = (a, None).
Proof.
  induction a as [|c a IH]; cbn; intros H; [reflexivity|].
  apply andb_true_iff in H as [H1 H2]. apply negb_true_iff in H1. rewrite H1. now rewrite (IH H2).
Qed.

Lemma string_of_uint_no_slash d : no_slash (NilEmpty.string_of_uint d) = true.
Proof. induction d; cbn; auto. Qed.
Lemma dec_no_slash n : no_slash (dec n) = true.
Proof. unfold dec, NilZero.string_of_uint. destruct (N.to_uint n); [reflexivity|..]; apply string_of_uint_no_slash. Qed.

Lemma to_uint_nnil n : N.to_uint n <> Decimal.Nil.
Proof. destruct n; cbn; [discriminate|]. apply Unsigned.to_uint_nonnil. Qed.
Lemma parse_dec n : parse_num (dec n) = Some n.
Proof.
  unfold parse_num, dec. rewrite NilZero.usu by apply to_uint_nnil. cbn. now rewrite DecimalN.Unsigned.of_to.
Qed.
Lemma dec_inj a b : dec a = dec b -> a = b.
Proof. intros H. apply (f_equal parse_num) in H. rewrite !parse_dec in H. congruence. Qed.

Lemma drop_prefix_app p s : drop_prefix p (p ++ s) = Some s.
Proof. induction p as [|c p IH]; cbn; [destruct s; reflexivity|]. now rewrite Ascii.eqb_refl. Qed.
Lemma substring_all s : substring 0 (String.length s) s = s.
Proof. induction s; cbn; [reflexivity|now f_equal]. Qed.
Lemma substring_pre a b : substring 0 (String.length a) (a ++ b) = a.
Proof. induction a as [|c a IH]; cbn; [destruct b; reflexivity|now f_equal]. Qed.
Lemma substring_suf a b : substring (String.length a) (String.length b) (a ++ b) = b.
Proof. induction a as [|c a IH]; cbn; [apply substring_all|exact IH]. Qed.
Lemma drop_suffix_app a x : drop_suffix x (a ++ x) = Some a.
Proof.
  unfold drop_suffix. rewrite length_app_s.
  replace (String.length a + String.length x - String.length x)%nat with (String.length a) by lia.
  rewrite substring_suf, String.eqb_refl. now rewrite substring_pre.
Qed.

(** [sep c]: put a constant with a trailing slash into the shape [split1_sep] wants. *)
Lemma proj_str_no_slash k : no_slash (proj_str k) = true.
Proof. destruct k; try reflexivity. cbn [proj_str]. rewrite !no_slash_app, dec_no_slash. reflexivity. Qed.
Lemma idx_str_no_slash i : no_slash (idx_str i) = true.
Proof. destruct i; reflexivity. Qed.
Lemma parse_idx_ok i : parse_idx (idx_str i) = Some i.
Proof. destruct i; reflexivity. Qed.
Lemma group_kind_ne g : forall c, In c ["events"; "custom_events"; "dashboards"; "reports"; "event_properties"; "groups";
  "dictinaries"; "sessions"; "bookmarks"; "properties"; "global"] ->
  String.eqb (proj_str (PGroupProps g)) c = false.
Proof.
  intros c H. cbn [proj_str append].
  repeat (destruct H as [<-|H]; [reflexivity|]). contradiction.
Qed.
Lemma parse_kind_ok k : parse_kind (proj_str k) = Some k.
Proof.
  destruct k; try reflexivity. unfold parse_kind.
  rewrite !group_kind_ne by (cbn; auto 12).
  cbn [proj_str]. rewrite drop_prefix_app. cbn [obind]. rewrite drop_suffix_app. cbn [obind].
  now rewrite parse_dec.
Qed.

Lemma parse_tail_data ns id : parse_tail ns ("data/" ++ dec id) = Some (KData ns id).
Proof. unfold parse_tail. cbn. now rewrite parse_dec. Qed.
Lemma parse_tail_idx ns i key : parse_tail ns ("idx/" ++ idx_str i ++ "/" ++ key) = Some (KIdx ns i key).
Proof.
  unfold parse_tail. change ("idx/" ++ idx_str i ++ "/" ++ key) with ("idx" ++ String slash (idx_str i ++ String slash key)).
  rewrite split1_sep by reflexivity. rewrite split1_sep by apply idx_str_no_slash. now rewrite parse_idx_ok.
Qed.

Ltac norm := repeat rewrite ?app_assoc_s; cbn [append].

Lemma parse_project p r : parse ("projects/" ++ dec p ++ "/" ++ r) = parse_proj p r.
Proof.
  unfold parse. change ("projects/" ++ dec p ++ "/" ++ r) with ("projects" ++ String slash (dec p ++ String slash r)).
  rewrite split1_sep by reflexivity. cbn [String.eqb].
  change (String.eqb "projects" "accounts") with false. change (String.eqb "projects" "system") with false.
  change (String.eqb "projects" "organizations") with false. change (String.eqb "projects" "projects") with true.
  cbn iota. rewrite split1_sep by apply dec_no_slash. now rewrite parse_dec.
Qed.

Lemma proj_str_not_special k : forall c, In c ["groups"; "dictinaries"; "sessions"; "bookmarks"; "properties"; "global"] ->
  String.eqb (proj_str k) c = false.
Proof.
  intros c H. destruct k; [..|apply group_kind_ne; cbn in *; tauto];
    repeat (destruct H as [<-|H]; [reflexivity|]); contradiction.
Qed.
Lemma parse_proj_tail p k r : r <> "recordsid_seq" ->
  parse_proj p (proj_str k ++ "/" ++ r) = parse_tail (NProj p k) r.
Proof.
  intros N. unfold parse_proj. change ("/" ++ r) with (String slash r).
  rewrite split1_sep by apply proj_str_no_slash.
  rewrite !proj_str_not_special by (cbn; auto 12).
  assert (E : String.eqb r "recordsid_seq" = false) by now apply String.eqb_neq. rewrite E, andb_false_r.
  now rewrite parse_kind_ok.
Qed.

Lemma data_ne_rec x : "data" ++ x <> "recordsid_seq".
Proof. discriminate. Qed.

(** Everything below a namespace is parsed as such. *)
Lemma parse_ns ns c r : In c ["data"; "idx"] ->
  parse (ns_str ns ++ "/" ++ c ++ "/" ++ r) = parse_tail ns (c ++ "/" ++ r).
Proof.
  intros C. destruct ns as [[]|p k|o]; cbn [ns_str root_str].
  - reflexivity.
  - destruct C as [<-|[<-|[]]]; reflexivity.
  - destruct C as [<-|[<-|[]]]; reflexivity.
  - reflexivity.
  - unfold project_ns. rewrite !app_assoc_s. rewrite parse_project.
    apply parse_proj_tail. destruct C as [<-|[<-|[]]]; discriminate.
  - unfold org_ns. rewrite !app_assoc_s. unfold parse.
    change ("organizations/" ++ dec o ++ "/" ++ "teams" ++ "/" ++ c ++ "/" ++ r)
      with ("organizations" ++ String slash (dec o ++ String slash ("teams" ++ String slash (c ++ "/" ++ r)))).
    rewrite split1_sep by reflexivity.
    change (String.eqb "organizations" "accounts") with false. change (String.eqb "organizations" "system") with false.
    change (String.eqb "organizations" "organizations") with true. cbn iota.
    rewrite split1_sep by apply dec_no_slash. rewrite parse_dec.
    rewrite split1_sep by reflexivity. reflexivity.
Qed.

Lemma parse_seq ns : parse (make_id_seq_key (ns_str ns)) = Some (KSeq ns).
Proof.
  unfold make_id_seq_key. destruct ns as [[]|p k|o]; cbn [ns_str root_str]; try reflexivity.
  - unfold project_ns. rewrite !app_assoc_s, parse_project. unfold parse_proj.
    rewrite split1_none by (rewrite no_slash_app, proj_str_no_slash; reflexivity).
    rewrite drop_suffix_app. cbn [obind]. rewrite proj_str_not_special by (cbn; auto).
    now rewrite parse_kind_ok.
  - unfold org_ns. rewrite !app_assoc_s. unfold parse.
    change ("organizations/" ++ dec o ++ "/" ++ "teams" ++ "id_seq")
      with ("organizations" ++ String slash (dec o ++ String slash "teamsid_seq")).
    rewrite split1_sep by reflexivity.
    change (String.eqb "organizations" "accounts") with false. change (String.eqb "organizations" "system") with false.
    change (String.eqb "organizations" "organizations") with true. cbn iota.
    rewrite split1_sep by apply dec_no_slash. rewrite parse_dec. reflexivity.
Qed.

Theorem parse_render k : wf_key k = true -> parse (render k) = Some k.
Proof.
  intros W. destruct k; cbn [render wf_key] in *.
  - unfold make_data_value_key. change ("/data/" ++ dec id) with ("/" ++ "data" ++ "/" ++ dec id).
    rewrite parse_ns by (cbn; auto). apply parse_tail_data.
  - unfold make_index_key. change ("/idx/" ++ idx_str i ++ "/" ++ key) with ("/" ++ "idx" ++ "/" ++ idx_str i ++ "/" ++ key).
    rewrite parse_ns by (cbn; auto). apply parse_tail_idx.
  - apply parse_seq.
  - unfold make_index_key, project_ns. rewrite !app_assoc_s, parse_project. reflexivity.
  - unfold make_id_seq_key, project_ns. rewrite !app_assoc_s, parse_project. reflexivity.
  - unfold make_id_seq_key, project_ns. rewrite !app_assoc_s, parse_project. unfold parse_proj.
    change ("properties/order/" ++ short ++ "id_seq") with ("properties" ++ String slash ("order" ++ String slash (short ++ "id_seq"))).
    rewrite split1_sep by reflexivity.
    repeat match goal with |- context [String.eqb "properties" ?c] =>
      let v := eval compute in (String.eqb "properties" c) in change (String.eqb "properties" c) with v end.
    cbn iota. rewrite split1_sep by reflexivity. now rewrite drop_suffix_app.
  - unfold make_id_seq_key, project_ns. rewrite !app_assoc_s, parse_project. reflexivity.
  - unfold make_id_seq_key, project_ns. rewrite !app_assoc_s, parse_project. unfold parse_proj.
    change ("groups/" ++ dec g ++ "id_seq") with ("groups" ++ String slash (dec g ++ "id_seq")).
    rewrite split1_sep by reflexivity. cbn iota. change (String.eqb "groups" "groups") with true. cbn iota.
    unfold parse_groups. rewrite split1_none by (rewrite no_slash_app, dec_no_slash; reflexivity).
    rewrite drop_suffix_app. cbn [obind]. now rewrite parse_dec.
  - unfold make_id_seq_key, project_ns. rewrite !app_assoc_s, parse_project. unfold parse_proj.
    change ("groups/" ++ dec g ++ "/records/" ++ "id_seq") with ("groups" ++ String slash (dec g ++ String slash ("records/id_seq"))).
    rewrite split1_sep by reflexivity. cbn iota. change (String.eqb "groups" "groups") with true. cbn iota.
    unfold parse_groups. rewrite split1_sep by apply dec_no_slash. rewrite parse_dec.
    destruct (String.eqb (dec g) "names") eqn:E; [|reflexivity].
    apply String.eqb_eq in E. apply (f_equal parse_num) in E. rewrite parse_dec in E. discriminate.
  - unfold anon_key. change ("/groups/" ++ dec g ++ "/anonymous/keys/" ++ k) with ("/" ++ ("groups/" ++ dec g ++ "/anonymous/keys/" ++ k)).
    rewrite parse_project. unfold parse_proj.
    change ("groups/" ++ dec g ++ "/anonymous/keys/" ++ k) with ("groups" ++ String slash (dec g ++ String slash ("anonymous/keys/" ++ k))).
    rewrite split1_sep by reflexivity. cbn iota. change (String.eqb "groups" "groups") with true. cbn iota.
    unfold parse_groups. rewrite split1_sep by apply dec_no_slash. rewrite parse_dec.
    destruct (String.eqb (dec g) "names") eqn:E; [|reflexivity].
    apply String.eqb_eq in E. apply (f_equal parse_num) in E. rewrite parse_dec in E. discriminate.
  - unfold real_key. change ("/groups/" ++ dec g ++ "/real/keys/" ++ k) with ("/" ++ ("groups/" ++ dec g ++ "/real/keys/" ++ k)).
    rewrite parse_project. unfold parse_proj.
    change ("groups/" ++ dec g ++ "/real/keys/" ++ k) with ("groups" ++ String slash (dec g ++ String slash ("real/keys/" ++ k))).
    rewrite split1_sep by reflexivity. cbn iota. change (String.eqb "groups" "groups") with true. cbn iota.
    unfold parse_groups. rewrite split1_sep by apply dec_no_slash. rewrite parse_dec.
    destruct (String.eqb (dec g) "names") eqn:E; [|reflexivity].
    apply String.eqb_eq in E. apply (f_equal parse_num) in E. rewrite parse_dec in E. discriminate.
  - unfold group_name_key. change ("/groups/names/" ++ name) with ("/" ++ "groups/names/" ++ name).
    rewrite parse_project. reflexivity.
  - unfold bookmark_key. change ("/bookmarks/accounts/" ++ dec a ++ "/" ++ id) with ("/" ++ ("bookmarks/accounts/" ++ dec a ++ "/" ++ id)).
    rewrite parse_project. unfold parse_proj.
    change ("bookmarks/accounts/" ++ dec a ++ "/" ++ id) with ("bookmarks" ++ String slash ("accounts" ++ String slash (dec a ++ String slash id))).
    rewrite split1_sep by reflexivity.
    repeat match goal with |- context [String.eqb "bookmarks" ?c] =>
      let v := eval compute in (String.eqb "bookmarks" c) in change (String.eqb "bookmarks" c) with v end.
    cbn iota. rewrite split1_sep by reflexivity. rewrite split1_sep by apply dec_no_slash. now rewrite parse_dec.
  - unfold session_key, project_ns. rewrite !app_assoc_s, parse_project. unfold parse_proj.
    change ("sessions" ++ "/data" ++ dec u) with ("sessions" ++ String slash ("data" ++ dec u)).
    rewrite split1_sep by reflexivity.
    repeat match goal with |- context [String.eqb "sessions" ?c] =>
      let v := eval compute in (String.eqb "sessions" c) in change (String.eqb "sessions" c) with v end.
    cbn iota. rewrite drop_prefix_app. cbn [obind]. now rewrite parse_dec.
  - apply andb_true_iff in W as [W1 W2]. unfold make_key_key, project_ns, dict_ns, tbl_dict.
    rewrite !app_assoc_s, parse_project. unfold parse_proj.
    change ("dictinaries" ++ "/" ++ "tables/" ++ t ++ "/" ++ d ++ "/" ++ "keys/" ++ dec n)
      with ("dictinaries" ++ String slash ("tables" ++ String slash (t ++ String slash (d ++ String slash ("keys" ++ String slash (dec n)))))).
    rewrite split1_sep by reflexivity.
    repeat match goal with |- context [String.eqb "dictinaries" ?c] =>
      let v := eval compute in (String.eqb "dictinaries" c) in change (String.eqb "dictinaries" c) with v end.
    cbn iota. unfold parse_dict. rewrite split1_sep by reflexivity. rewrite split1_sep by exact W1. rewrite split1_sep by exact W2.
    rewrite split1_sep by reflexivity. now rewrite parse_dec.
  - apply andb_true_iff in W as [W1 W2]. unfold make_value_key, project_ns, dict_ns, tbl_dict.
    rewrite !app_assoc_s, parse_project. unfold parse_proj.
    change ("dictinaries" ++ "/" ++ "tables/" ++ t ++ "/" ++ d ++ "/" ++ "values/" ++ v)
      with ("dictinaries" ++ String slash ("tables" ++ String slash (t ++ String slash (d ++ String slash ("values" ++ String slash v))))).
    rewrite split1_sep by reflexivity.
    repeat match goal with |- context [String.eqb "dictinaries" ?c] =>
      let v := eval compute in (String.eqb "dictinaries" c) in change (String.eqb "dictinaries" c) with v end.
    cbn iota. unfold parse_dict. rewrite split1_sep by reflexivity. rewrite split1_sep by exact W1. rewrite split1_sep by exact W2.
    rewrite split1_sep by reflexivity. reflexivity.
  - apply andb_true_iff in W as [W1 W2]. unfold make_id_seq_key, project_ns, dict_ns, tbl_dict.
    rewrite !app_assoc_s, parse_project. unfold parse_proj.
    change ("dictinaries" ++ "/" ++ "tables/" ++ t ++ "/" ++ d ++ "/" ++ "id_seq")
      with ("dictinaries" ++ String slash ("tables" ++ String slash (t ++ String slash (d ++ String slash "id_seq")))).
    rewrite split1_sep by reflexivity.
    repeat match goal with |- context [String.eqb "dictinaries" ?c] =>
      let v := eval compute in (String.eqb "dictinaries" c) in change (String.eqb "dictinaries" c) with v end.
    cbn iota. unfold parse_dict. rewrite split1_sep by reflexivity. rewrite split1_sep by exact W1. rewrite split1_sep by exact W2.
    reflexivity.
  - reflexivity.
Qed.

Theorem render_inj a b : wf_key a = true -> wf_key b = true -> render a = render b -> a = b.
Proof. intros Wa Wb E. apply (f_equal parse) in E. rewrite !parse_render in E by assumption. congruence. Qed.
