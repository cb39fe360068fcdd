(** Round trip of the metadata records. *)
From Coq Require Import List NArith ZArith Lia Bool.
From Verif Require Import Bytes BytesFacts Value Memtable Proto MdCodec MdFacts SavedQuery SavedQueryFacts RecCodec RecSpec.
Import ListNotations.
Local Open Scope N_scope.

(** *** Fields *)
Lemma occ_strs_ne t t' l : (t' =? t) = false -> occurrences t (put_strs t' l) = [].
Proof. intros H. unfold put_strs, occurrences. induction l as [|m l IH]; cbn; [reflexivity|]. rewrite H. exact IH. Qed.
Lemma occ_strs_eq t l : occurrences t (put_strs t l) = map WB l.
Proof. unfold put_strs, occurrences. induction l as [|m l IH]; cbn; [reflexivity|]. rewrite N.eqb_refl. cbn. now rewrite IH. Qed.
Lemma get_strs_occ t fs l : occurrences t fs = map WB l -> get_strs t fs = Some l.
Proof. unfold get_strs. intros ->. induction l as [|m l IH]; cbn; [reflexivity|]. now rewrite IH. Qed.
Lemma ok_strs t l : tag_ok t -> Forall field_ok (put_strs t l).
Proof. intros. unfold put_strs. rewrite Forall_map. apply Forall_forall. intros; split; [assumption|exact I]. Qed.
Lemma ok_int t z : tag_ok t -> Forall field_ok (put_int t z).
Proof. intros. apply ok_uint; [assumption|]. apply to_unsigned_bound. Qed.
Lemma ok_oint t o : tag_ok t -> Forall field_ok (put_oint t o).
Proof. intros. apply ok_ouint; [assumption|]. destruct o; cbn; [apply to_unsigned_bound|exact I]. Qed.
Lemma occ_int_ne t t' z : (t' =? t) = false -> occurrences t (put_int t' z) = []. Proof. apply occ_uint_ne. Qed.
Lemma occ_oint_ne t t' z : (t' =? t) = false -> occurrences t (put_oint t' z) = []. Proof. apply occ_ouint_ne. Qed.
Lemma occ_int_eq t z : occurrences t (put_int t z) = if to_unsigned 64 z =? 0 then [] else [WV (to_unsigned 64 z)].
Proof. apply occ_uint_eq. Qed.
Lemma occ_oint_eq t z : occurrences t (put_oint t z) = match option_map (to_unsigned 64) z with None => [] | Some n => [WV n] end.
Proof. apply occ_ouint_eq. Qed.
Lemma i64_back z : i64_ok z -> of_unsigned 64 (to_unsigned 64 z) = z.
Proof. intro H. apply of_unsigned_to_unsigned; [lia|exact H]. Qed.
Lemma get_int_occ t fs z : occurrences t fs = (if to_unsigned 64 z =? 0 then [] else [WV (to_unsigned 64 z)]) -> i64_ok z -> get_int t fs = Some z.
Proof. intros H K. unfold get_int. rewrite (get_uint_occ t fs _ H). cbn [option_map]. now rewrite i64_back. Qed.
Lemma get_oint_occ t fs z : occurrences t fs = match option_map (to_unsigned 64) z with None => [] | Some n => [WV n] end -> opt i64_ok z ->
  get_oint t fs = Some z.
Proof. intros H K. unfold get_oint. rewrite (get_ouint_occ t fs _ H). cbn [option_map]. destruct z as [z|]; [|reflexivity]. cbn. now rewrite i64_back. Qed.

Ltac occ1 :=
  match goal with
  | |- context [occurrences ?t (put_int ?u ?n)] => rewrite (occ_int_ne t u n eq_refl)
  | |- context [occurrences ?t (put_oint ?u ?n)] => rewrite (occ_oint_ne t u n eq_refl)
  | |- context [occurrences ?t (put_strs ?u ?n)] => rewrite (occ_strs_ne t u n eq_refl)
  | |- context [occurrences ?t (put_uint ?u ?n)] => rewrite (occ_uint_ne t u n eq_refl)
  | |- context [occurrences ?t (put_ouint ?u ?n)] => rewrite (occ_ouint_ne t u n eq_refl)
  | |- context [occurrences ?t (put_bool ?u ?n)] => rewrite (occ_bool_ne t u n eq_refl)
  | |- context [occurrences ?t (put_bytes ?u ?n)] => rewrite (occ_bytes_ne t u n eq_refl)
  | |- context [occurrences ?t (put_obytes ?u ?n)] => rewrite (occ_obytes_ne t u n eq_refl)
  | |- context [occurrences ?t (put_msg ?u ?n)] => rewrite (occ_msg_ne t u n eq_refl)
  | |- context [occurrences ?t (put_rep ?u ?n)] => rewrite (occ_rep_ne t u n eq_refl)
  end.
Lemma occ_stamps_ne t s : 5 < t -> occurrences t (put_stamps s) = [].
Proof.
  intro H. unfold put_stamps. rewrite !occ_app, occ_uint_ne, occ_int_ne, occ_uint_ne, occ_oint_ne, occ_ouint_ne; try reflexivity;
  apply N.eqb_neq; lia.
Qed.
Ltac occr :=
  rewrite ?occ_app; rewrite ?occ_stamps_ne by reflexivity; repeat occ1;
  rewrite ?occ_uint_eq, ?occ_ouint_eq, ?occ_bool_eq, ?occ_bytes_eq, ?occ_obytes_eq, ?occ_msg_eq, ?occ_rep_eq, ?occ_int_eq, ?occ_oint_eq, ?occ_strs_eq;
  cbn [app]; rewrite ?app_nil_r; reflexivity.
Ltac okb :=
  first [apply ok_strs|apply ok_int|apply ok_oint|apply ok_uint|apply ok_ouint|apply ok_bool|apply ok_bytes|apply ok_obytes|apply ok_msg|apply ok_rep];
  try (unfold tag_ok; lia); auto.
Ltac okf0 := repeat (apply Forall_app; split); okb.

Lemma whole_back t : of_secs (secs t) = whole t.
Proof. unfold of_secs, secs, whole, NANOS. pose proof (Z.div_mod t 1000000000). lia. Qed.
Lemma ok_stamps s : stamps_ok s -> Forall field_ok (put_stamps s).
Proof. intros (H1 & H2 & H3 & H4 & H5). unfold put_stamps. okf0. Qed.
Opaque put_stamps.
Ltac okf := lazymatch goal with |- Forall field_ok (_ ++ _) => apply Forall_app; split; okf | |- Forall field_ok (put_stamps _) => apply ok_stamps; assumption | _ => okb end.
Lemma stamps_rt s rest : stamps_ok s -> (forall t, t <= 5 -> occurrences t rest = []) ->
  get_stamps (put_stamps s ++ rest) = Some (as_read_stamps s).
Proof.
  Transparent put_stamps. intros (H1 & H2 & H3 & H4 & H5) Hr. unfold get_stamps, put_stamps.
  rewrite (get_uint_occ 1 _ (sp_id s)) by (rewrite !occ_app, Hr by lia; occr). cbn [obind].
  rewrite (get_int_occ 2 _ (secs (sp_created s))); [|rewrite !occ_app, Hr by lia; occr|exact H2]. cbn [obind].
  rewrite (get_uint_occ 3 _ (sp_by s)) by (rewrite !occ_app, Hr by lia; occr). cbn [obind].
  rewrite (get_oint_occ 4 _ (option_map secs (sp_updated s))); [|rewrite !occ_app, Hr by lia; occr|now destruct (sp_updated s)]. cbn [obind].
  rewrite (get_ouint_occ 5 _ (sp_updated_by s)) by (rewrite !occ_app, Hr by lia; occr). cbn [obind].
  unfold as_read_stamps. f_equal. rewrite whole_back. f_equal. destruct (sp_updated s); cbn; [now rewrite whole_back|reflexivity].
Qed.
Opaque put_stamps.
Lemma low_occ t : t <= 5 -> t = 0 \/ t = 1 \/ t = 2 \/ t = 3 \/ t = 4 \/ t = 5. Proof. lia. Qed.
Ltac low := let t := fresh in let H := fresh in intros t H; apply low_occ in H as [->|[->|[->|[->|[->| ->]]]]]; occr.
Ltac rd_stamps := rewrite stamps_rt; [|assumption|low]; cbn [obind].
Ltac rd1 :=
  first [ erewrite get_uint_occ by occr | erewrite get_ouint_occ by occr | erewrite get_bytes_occ by occr | erewrite get_obytes_occ by occr
        | erewrite get_bool_occ by occr | erewrite get_rep_occ by occr | erewrite get_strs_occ by occr ]; cbn [obind].
Lemma unless_or {A} (o : option (list A)) : unless_empty (or_empty o) = as_read_list o.
Proof. now destruct o as [[|]|]. Qed.

(** *** Teams *)
Lemma team_rt t : team_ok t -> fits_memory (write_team t) -> read_team (write_team t) = Some (as_read_team t).
Proof.
  intros (H1 & H2) Hm. unfold read_team, write_team. rewrite dec_fields_enc; [|unfold put_team; okf|exact Hm].
  cbn [obind]. unfold put_team. rd_stamps. rd1. rd1. reflexivity.
Qed.

(** *** Accounts and organizations *)
Lemma member_rt {R} (no : R -> N) of (m : N * R) : (forall r, of (u32 (no r)) = Some r) -> no (snd m) < 2 ^ 64 -> u64 (fst m) ->
  small (put_member no m) -> get_member of (enc_fields (put_member no m)) = Some m.
Proof.
  intros Ho Hn Hu Sm. unfold get_member. rewrite dec_fields_enc; [|unfold put_member; okf|exact Sm].
  cbn [obind]. unfold put_member. rd1. rd1. rewrite Ho. cbn [obind]. now destruct m.
Qed.
Lemma members_rt {R} (no : R -> N) of t (l : list (N * R)) : (forall r, of (u32 (no r)) = Some r) -> (forall r, no r < 2 ^ 64) ->
  members_ok l -> small (put_rep t (map (put_member no) l)) ->
  omap (get_member of) (map enc_fields (map (put_member no) l)) = Some l.
Proof.
  intros Ho Hn Hl Sm. rewrite map_map. apply omap_id. intros m Hm. unfold members_ok in Hl. rewrite Forall_forall in Hl.
  apply member_rt; auto. eapply small_rep; [apply in_map; exact Hm|exact Sm].
Qed.
Lemma org_roles r : org_role_of (u32 (org_role_no r)) = Some r. Proof. now destruct r. Qed.
Lemma proj_roles r : proj_role_of (u32 (proj_role_no r)) = Some r. Proof. now destruct r. Qed.
Lemma org_role_lt r : org_role_no r < 2 ^ 64. Proof. now destruct r. Qed.
Lemma proj_role_lt r : proj_role_no r < 2 ^ 64. Proof. now destruct r. Qed.
Lemma members_or {R} (o : option (list (N * R))) : opt members_ok o -> members_ok (or_empty o).
Proof. destruct o; cbn; [auto|constructor]. Qed.

Lemma account_rt a : account_ok a -> fits_memory (write_account a) -> read_account (write_account a) = Some (as_read_account a).
Proof.
  intros (H1 & H2 & H3 & H4) Hm. unfold read_account, write_account.
  rewrite dec_fields_enc; [|unfold put_account; okf; now destruct (fac_admin a)|exact Hm].
  assert (Sm : small (put_account a)) by exact Hm. unfold put_account in Sm. smalls.
  cbn [obind]. unfold put_account. rd_stamps. do 4 rd1.
  assert (E : match option_map (fun _ : unit => 1) (fac_admin a) with None => Some None | Some v => option_map Some (role_of (u32 v)) end = Some (fac_admin a))
    by (now destruct (fac_admin a) as [[]|]).
  rewrite E. cbn [obind]. do 3 rd1.
  erewrite members_rt; [|exact org_roles|exact org_role_lt|now apply members_or|eassumption]. cbn [obind]. rd1.
  erewrite members_rt; [|exact proj_roles|exact proj_role_lt|now apply members_or|eassumption]. cbn [obind]. rd1.
  erewrite members_rt; [|now intros []|reflexivity|now apply members_or|eassumption]. cbn [obind]. now rewrite !unless_or.
Qed.
Lemma organization_rt a : organization_ok a -> fits_memory (write_organization a) ->
  read_organization (write_organization a) = Some (as_read_organization a).
Proof.
  intros (H1 & H2) Hm. unfold read_organization, write_organization.
  rewrite dec_fields_enc; [|unfold put_organization; okf|exact Hm].
  assert (Sm : small (put_organization a)) by exact Hm. unfold put_organization in Sm. smalls.
  cbn [obind]. unfold put_organization. rd_stamps. do 2 rd1.
  erewrite members_rt; [|exact org_roles|exact org_role_lt|exact H2|eassumption]. reflexivity.
Qed.

(** *** Projects, sessions *)
Lemma project_rt p : project_ok p -> fits_memory (write_project p) -> read_project (write_project p) = Some (as_read_project p).
Proof.
  intros (H1 & H2 & H3 & H4) Hm. unfold read_project, write_project. rewrite dec_fields_enc; [|unfold put_project; okf|exact Hm].
  cbn [obind]. unfold put_project. rd_stamps. do 7 rd1. now rewrite unless_or.
Qed.
Lemma session_rt s : session_ok s -> fits_memory (write_session s) -> read_session (write_session s) = Some (as_read_session s).
Proof.
  intros (H1 & H2) Hm. unfold read_session, write_session. rewrite dec_fields_enc; [|unfold put_session; okf|exact Hm].
  cbn [obind]. unfold put_session. rd1. rewrite (get_int_occ 2 _ (secs (fse_created s))); [|occr|exact H2]. cbn [obind].
  unfold as_read_session. now rewrite whole_back.
Qed.

(** *** Dashboards *)
Lemma u32_lt n : u32 n < 2 ^ 64.
Proof. unfold u32. pose proof (N.mod_upper_bound n (2 ^ 32)). lia. Qed.
Lemma u32_u32 n : u32 (u32 n) = u32 n.
Proof. unfold u32. apply N.mod_mod. lia. Qed.
Lemma panel_rt p : panel_ok p -> small (put_panel p) -> get_panel (enc_fields (put_panel p)) = Some (as_read_panel p).
Proof.
  intros H1 Sm. unfold get_panel. rewrite dec_fields_enc; [|unfold put_panel; okf; try apply u32_lt|exact Sm].
  cbn [obind]. unfold put_panel. rewrite (get_uint_occ 1 _ 1) by occr. cbn [obind]. change (role_of (u32 1)) with (Some tt). cbn [obind].
  do 5 rd1. now rewrite !u32_u32.
Qed.
Lemma dashboard_rt d : dashboard_ok d -> fits_memory (write_dashboard d) -> read_dashboard (write_dashboard d) = Some (as_read_dashboard d).
Proof.
  intros (H1 & H2 & H3) Hm. unfold read_dashboard, write_dashboard. rewrite dec_fields_enc; [|unfold put_dashboard; okf|exact Hm].
  assert (Sm : small (put_dashboard d)) by exact Hm. unfold put_dashboard in Sm. smalls.
  cbn [obind]. unfold put_dashboard. rd_stamps. do 5 rd1. rewrite map_map.
  rewrite (omap_enc _ get_panel as_read_panel); [cbn [obind]; now rewrite unless_or|].
  intros p Hp. rewrite Forall_forall in H3. apply panel_rt; [now apply H3|]. eapply small_rep; [apply in_map; exact Hp|eassumption].
Qed.

(** *** Events, properties *)
Lemma status_lt s : status_no s < 2 ^ 64. Proof. now destruct s. Qed.
Lemma status_back s : status_of (u32 (status_no s)) = Some s. Proof. now destruct s. Qed.
Lemma event_rt e : event_ok e -> fits_memory (write_event e) -> read_event (write_event e) = Some (as_read_event e).
Proof.
  intros (H1 & H2) Hm. unfold read_event, write_event. rewrite dec_fields_enc; [|unfold put_event; okf; apply status_lt|exact Hm].
  cbn [obind]. unfold put_event. rd_stamps. do 6 rd1. rewrite status_back. cbn [obind]. rd1. now rewrite unless_or.
Qed.
Lemma dt_lt d : dt_tag d < 2 ^ 64. Proof. now destruct d. Qed.
Lemma property_rt p b : property_ok p -> write_property p = Some b -> fits_memory b -> read_property b = Some (as_read_property p).
Proof.
  intros (H1 & H2 & H3 & H4) Hw Hm. unfold write_property, put_property in Hw. destruct (fpr_type p) as [d|] eqn:Et; [|discriminate].
  cbn [option_map] in Hw. assert (Eb : b = enc_fields (put_stamps (fpr_stamps p) ++ put_uint 6 (fpr_project p) ++ put_strs 7 (or_empty (fpr_tags p)) ++ put_bytes 8 (fpr_name p)
     ++ put_obytes 9 (fpr_display p) ++ put_obytes 10 (fpr_descr p) ++ put_uint 11 (fpr_order p)
     ++ put_ouint 12 (match fpr_kind p with PkEvent => Some 1 | PkGroup _ => None end)
     ++ put_ouint 13 (match fpr_kind p with PkEvent => None | PkGroup g => Some g end)
     ++ put_uint 14 (dt_tag d) ++ put_uint 15 (status_no (fpr_status p)) ++ put_bool 16 (fpr_system p)
     ++ put_bool 17 (fpr_nullable p) ++ put_bool 18 (fpr_hidden p) ++ put_bool 19 (fpr_array p) ++ put_bool 20 (fpr_dictionary p)
     ++ put_ouint 21 (option_map dict_no (fpr_dict_type p)))) by congruence. subst b. clear Hw. unfold read_property.
  rewrite dec_fields_enc; [| |exact Hm].
  2:{ okf; try apply status_lt; try apply dt_lt; try (now destruct (fpr_kind p)). now destruct (fpr_dict_type p) as [[]|]. }
  cbn [obind]. rd_stamps. repeat rd1.
  assert (Ek : match match fpr_kind p with PkEvent => Some 1 | PkGroup _ => None end with
          | Some 0 | None => option_map PkGroup match fpr_kind p with PkEvent => None | PkGroup g => Some g end
          | Some _ => Some PkEvent
          end = Some (fpr_kind p)) by now destruct (fpr_kind p).
  rewrite Ek. cbn [obind]. repeat rd1.
  replace (dt_of_tag (u32 (dt_tag d))) with (Some d) by now destruct d. cbn [obind]. repeat rd1. rewrite status_back. cbn [obind].
  repeat rd1.
  assert (El : match option_map dict_no (fpr_dict_type p) with None => Some None | Some v => option_map Some (dict_of (u32 v)) end = Some (fpr_dict_type p))
    by (now destruct (fpr_dict_type p) as [[]|]). rewrite El. cbn [obind].
  unfold as_read_property. now rewrite unless_or, Et.
Qed.

(** *** Groups *)
Lemma dec_of_bytes z : fits 128 z -> dec_of (dec_bytes z) = Some z.
Proof.
  intro H. unfold dec_of, dec_bytes. rewrite le_bytes_length. cbn [Nat.eqb]. rewrite of_le_le_bytes.
  change (256 ^ N.of_nat 16) with (2 ^ 128). rewrite N.mod_small by apply to_unsigned_bound.
  now rewrite of_unsigned_to_unsigned by (try lia; exact H).
Qed.
Lemma gvalue_rt v m : gvalue_ok v -> put_gvalue v = Some m -> small m -> get_gvalue (enc_fields m) = Some v.
Proof.
  intros Hv Hp Sm. unfold get_gvalue.
  assert (F : Forall field_ok m).
  { destruct v as [| [z|] | [z|] | [z|] | [z|] | [b|] | [z|] | [z|] | [s|] |]; cbn [put_gvalue] in Hp; try discriminate;
    match type of Hp with Some ?x = Some m => replace m with x by congruence end; okb; cbn; try (now destruct b); reflexivity. }
  rewrite dec_fields_enc by assumption. cbn [obind]. clear F Sm.
  destruct v as [| [z|] | [z|] | [z|] | [z|] | [b|] | [z|] | [z|] | [s|] |]; cbn [put_gvalue gvalue_ok] in *; try discriminate; try contradiction;
  assert (Em : m = m) by reflexivity; inversion Hp; subst m; cbn -[to_unsigned of_unsigned N.pow N.modulo dec_bytes dec_of].
  - reflexivity.
  - rewrite mod_of_to by lia. now rewrite of_unsigned_to_unsigned by (try lia; exact Hv).
  - rewrite mod_of_to by lia. now rewrite of_unsigned_to_unsigned by (try lia; exact Hv).
  - rewrite mod_of_to by lia. now rewrite of_unsigned_to_unsigned by (try lia; exact Hv).
  - now rewrite of_unsigned_to_unsigned by (try lia; exact Hv).
  - now destruct b.
  - now rewrite of_unsigned_to_unsigned by (try lia; exact Hv).
  - now rewrite dec_of_bytes.
  - reflexivity.
Qed.
(** Writing succeeds exactly for the values that are there. *)
Lemma omap_some {A B} (f : A -> option B) l r : omap f l = Some r -> Forall2 (fun a b => f a = Some b) l r.
Proof.
  revert r. induction l as [|a l IH]; intros r H; cbn [omap] in H.
  - injection H as <-. constructor.
  - destruct (f a) as [b|] eqn:E; [|discriminate]. cbn [obind] in H. destruct (omap f l) as [r'|]; [|discriminate].
    cbn in H. injection H as <-. constructor; auto.
Qed.
Lemma omap_enc2 {A C} (p : A -> option Fields) (d : list N -> option C) (g : A -> C) l ms :
  omap p l = Some ms -> (forall a m, In a l -> In m ms -> p a = Some m -> d (enc_fields m) = Some (g a)) ->
  omap d (map enc_fields ms) = Some (map g l).
Proof.
  intro H. apply omap_some in H. induction H as [|a m l ms Ha Hl IH]; intro K; [reflexivity|].
  cbn [map omap]. rewrite (K a m) by (try (now left); exact Ha). cbn [obind]. rewrite IH by (intros; eapply K; try right; eassumption). reflexivity.
Qed.
Lemma gprop_rt v m : u64 (fst v) -> gvalue_ok (snd v) -> put_gprop v = Some m -> small m -> get_gprop (enc_fields m) = Some v.
Proof.
  intros H1 H2 Hp Sm. unfold put_gprop in Hp. destruct (put_gvalue (snd v)) as [gm|] eqn:Eg; [|discriminate]. cbn [obind] in Hp.
  assert (Em : m = put_uint 1 (fst v) ++ put_msg 2 gm) by congruence. subst m. unfold get_gprop.
  rewrite dec_fields_enc; [|okf|exact Sm]. smalls. cbn [obind]. rd1. rewrite (get_msg_occ 2 _ (enc_fields gm)) by occr. cbn [obind].
  rewrite (gvalue_rt (snd v) gm); [|exact H2|exact Eg|eapply small_msg; eassumption]. now destruct v.
Qed.
Lemma group_values_rt g b : group_values_ok g -> write_group_values g = Some b -> fits_memory b -> read_group_values b = Some g.
Proof.
  intros (H1 & H2) Hw Hm. unfold write_group_values, put_group_values in Hw. destruct (omap put_gprop (fgv_values g)) as [vs|] eqn:Ev; [|discriminate].
  cbn [obind option_map] in Hw. assert (Eb : b = enc_fields (put_uint 1 (fgv_id g) ++ put_rep 2 vs)) by congruence. subst b. unfold read_group_values.
  rewrite dec_fields_enc; [|okf|exact Hm]. assert (Sm : small (put_uint 1 (fgv_id g) ++ put_rep 2 vs)) by exact Hm. smalls.
  cbn [obind]. rd1. rd1. rewrite (omap_enc2 put_gprop _ (fun v => v) (fgv_values g)); [rewrite map_id; now destruct g|exact Ev|].
  intros v m Hv Hvm Hp. rewrite Forall_forall in H2. destruct (H2 v Hv). apply gprop_rt; auto. eapply small_rep; eassumption.
Qed.
Lemma gvalue_writes v : (exists m, put_gvalue v = Some m) <->
  match v with GNull => True | GInt8 o | GInt16 o | GInt32 o | GInt64 o | GTimestamp o | GDecimal o => o <> None
             | GBool o => o <> None | GString o => o <> None | GList => False end.
Proof.
  destruct v as [| [z|] | [z|] | [z|] | [z|] | [b|] | [z|] | [z|] | [s|] |]; cbn; split; intro H; try (destruct H; congruence); try congruence; eauto;
  try discriminate; contradiction.
Qed.
Lemma group_rt g : group_ok g -> fits_memory (write_group g) -> read_group (write_group g) = Some g.
Proof.
  intros H Hm. unfold read_group, write_group. rewrite dec_fields_enc; [|unfold put_group; okf|exact Hm].
  cbn [obind]. unfold put_group. rd1. rd1. rewrite (get_obytes_occ 3 _ (Some (fgr_display g))) by occr. cbn [obind]. now destruct g.
Qed.

(** *** Backups *)
Lemma backup_rt b : backup_ok b -> fits_memory (write_backup b) -> read_backup (write_backup b) = Some (as_read_backup b).
Proof.
  intros (H1 & H2 & H3 & H4) Hm. unfold read_backup, write_backup. rewrite dec_fields_enc; [| |exact Hm].
  2:{ unfold put_backup; okf; destruct (fbk_provider b), (fbk_status b); try reflexivity; exact H4. }
  cbn [obind]. unfold put_backup. rd1.
  rewrite (get_int_occ 2 _ (secs (fbk_created b))); [|occr|exact H2]. cbn [obind].
  rewrite (get_oint_occ 3 _ (option_map secs (fbk_updated b))); [|occr|now destruct (fbk_updated b)]. cbn [obind].
  do 12 rd1. unfold as_read_backup. rewrite whole_back.
  replace (option_map of_secs (option_map secs (fbk_updated b))) with (option_map whole (fbk_updated b))
    by (destruct (fbk_updated b); cbn; now rewrite ?whole_back).
  destruct (fbk_provider b), (fbk_status b); reflexivity.
Qed.

(** *** Custom events *)
Lemma cvalue_rt v m : cvalue_ok v -> put_cvalue v = Some m -> small m -> get_cvalue (enc_fields m) = Some (as_read_cvalue v).
Proof.
  intros Hv Hp Sm. unfold get_cvalue.
  assert (F : Forall field_ok m).
  { destruct v as [|[b|]|[z|]|[z|]|[z|]|[z|]|[z|]|[s|]|[z|]]; cbn [put_cvalue] in Hp; try discriminate; try contradiction;
    match type of Hp with Some ?x = Some m => replace m with x by congruence end; okb; cbn; try (now destruct b); reflexivity. }
  rewrite dec_fields_enc by assumption. cbn [obind]. clear F Sm.
  destruct v as [|[b|]|[z|]|[z|]|[z|]|[z|]|[z|]|[s|]|[z|]]; cbn [put_cvalue cvalue_ok] in *; try discriminate; try contradiction;
  inversion Hp; subst m; cbn -[to_unsigned of_unsigned N.pow N.modulo dec_bytes dec_of u32].
  - now destruct b.
  - now rewrite dec_of_bytes.
  - rewrite mod_of_to by lia. now rewrite of_unsigned_to_unsigned by (try lia; exact Hv).
  - rewrite mod_of_to by lia. now rewrite of_unsigned_to_unsigned by (try lia; exact Hv).
  - rewrite mod_of_to by lia. now rewrite of_unsigned_to_unsigned by (try lia; exact Hv).
  - now rewrite of_unsigned_to_unsigned by (try lia; exact Hv).
  - reflexivity.
  - now rewrite of_unsigned_to_unsigned by (try lia; exact Hv).
Qed.
Lemma op_lt o : op_no o < 2 ^ 64. Proof. now destruct o. Qed.
Lemma op_back o : op_of_no (u32 (op_no o)) = Some o. Proof. now destruct o. Qed.
Lemma cfilter_rt f m : cfilter_ok f -> put_cfilter f = Some m -> small m -> get_cfilter (enc_fields m) = Some (as_read_cfilter f).
Proof.
  destruct f as [p op v]. intros [H1 H2] Hp Sm. cbn [put_cfilter] in Hp. destruct (omap put_cvalue (or_empty v)) as [vs|] eqn:Ev; [|discriminate].
  cbn [obind] in Hp.
  assert (Em : m = put_obytes 1 (match p with PRGroup n _ | PREvent n => Some n | PRCustom _ => None end)
       ++ put_ouint 2 (match p with PRGroup _ g => Some g | _ => None end)
       ++ put_ouint 3 (match p with PRCustom i => Some i | _ => None end)
       ++ put_uint 4 (op_no op) ++ put_rep 5 vs) by congruence. subst m. unfold get_cfilter.
  rewrite dec_fields_enc; [|okf; try apply op_lt; now destruct p|exact Sm]. smalls. cbn [obind]. repeat rd1.
  assert (Ek : match match p with PRGroup n _ | PREvent n => Some n | PRCustom _ => None end with
          | Some n => Some (match match p with PRGroup _ g => Some g | _ => None end with Some g => PRGroup n g | None => PREvent n end)
          | None => option_map PRCustom match p with PRCustom i => Some i | _ => None end
          end = Some p) by now destruct p. rewrite Ek. cbn [obind]. rewrite op_back. cbn [obind].
  rewrite (omap_enc2 put_cvalue _ as_read_cvalue (or_empty v)); [reflexivity|exact Ev|].
  intros a m Ha Hm Hp'. apply cvalue_rt; [|exact Hp'|eapply small_rep; eassumption].
  destruct v as [l|]; cbn in *; [|contradiction]. rewrite Forall_forall in H2. auto.
Qed.
Lemma cevent_rt e m : cevent_ok e -> put_cevent e = Some m -> small m -> get_cevent (enc_fields m) = Some (as_read_cevent e).
Proof.
  intros [H1 H2] Hp Sm. unfold put_cevent in Hp. destruct (omap put_cfilter (or_empty (cev_filters e))) as [fl|] eqn:Ef; [|discriminate].
  cbn [obind] in Hp.
  assert (Em : m = put_obytes 1 (match cev_event e with ERegularName n => Some n | _ => None end)
     ++ put_ouint 2 (match cev_event e with ERegular i => Some i | _ => None end)
     ++ put_ouint 3 (match cev_event e with ECustom i => Some i | _ => None end)
     ++ put_rep 4 fl) by congruence. subst m. unfold get_cevent.
  rewrite dec_fields_enc; [|okf; now destruct (cev_event e)|exact Sm]. smalls. cbn [obind]. repeat rd1.
  assert (Ek : match match cev_event e with ERegular i => Some i | _ => None end with Some i => Some (ERegular i) | None =>
           match match cev_event e with ERegularName n => Some n | _ => None end with Some n => Some (ERegularName n)
           | None => option_map ECustom match cev_event e with ECustom i => Some i | _ => None end end end = Some (cev_event e))
    by now destruct (cev_event e). rewrite Ek. cbn [obind].
  rewrite (omap_enc2 put_cfilter _ as_read_cfilter (or_empty (cev_filters e))); [|exact Ef|].
  - cbn [obind]. unfold as_read_cevent. f_equal. f_equal. now destruct (cev_filters e) as [[|]|].
  - intros a m Ha Hm Hp'. apply cfilter_rt; [|exact Hp'|eapply small_rep; eassumption].
    destruct (cev_filters e) as [l|]; cbn in *; [|contradiction]. rewrite Forall_forall in H2. auto.
Qed.
Lemma custom_rt c b : custom_ok c -> write_custom c = Some b -> fits_memory b -> read_custom b = Some (as_read_custom c).
Proof.
  intros (H1 & H2 & H3) Hw Hm. unfold write_custom, put_custom in Hw. destruct (omap put_cevent (fcu_events c)) as [evs|] eqn:Ev; [|discriminate].
  cbn [obind option_map] in Hw.
  assert (Eb : b = enc_fields (put_stamps (fcu_stamps c) ++ put_uint 6 (fcu_project c) ++ put_strs 7 (or_empty (fcu_tags c)) ++ put_bytes 8 (fcu_name c)
     ++ put_obytes 9 (fcu_descr c) ++ put_uint 10 (status_no (fcu_status c)) ++ put_bool 11 (fcu_system c) ++ put_rep 12 evs)) by congruence.
  subst b. clear Hw. unfold read_custom. rewrite dec_fields_enc; [|okf; apply status_lt|exact Hm].
  match type of Hm with fits_memory (enc_fields ?f) => assert (Sm : small f) by exact Hm end. smalls.
  cbn [obind]. rd_stamps. do 5 rd1. rewrite status_back. cbn [obind]. do 2 rd1.
  rewrite (omap_enc2 put_cevent _ as_read_cevent (fcu_events c)); [cbn [obind]; now rewrite unless_or|exact Ev|].
  intros a m Ha Hm' Hp'. rewrite Forall_forall in H3. apply cevent_rt; [auto|exact Hp'|eapply small_rep; eassumption].
Qed.

(** *** Reports, bookmarks *)
Section Queries.
Variables (print_time : Z -> Str) (parse_time : Str -> option Z) (is_time : Z -> Prop).
Hypothesis times : forall t, is_time t -> bytes_ok (print_time t) /\ parse_time (print_time t) = Some t.
Lemma query_back q : query_ok is_time q -> read_query parse_time (enc_query print_time q) = Some q.
Proof.
  intro H. unfold read_query. pose proof (rt_query print_time parse_time is_time times q [] H) as E. rewrite app_nil_r in E. now rewrite E.
Qed.
Lemma rtype_lt t : rtype_no t < 2 ^ 64. Proof. now destruct t. Qed.
Lemma rtype_back t : rtype_of (u32 (rtype_no t)) = Some t. Proof. now destruct t. Qed.
Lemma report_rt r : report_ok is_time r -> fits_memory (write_report print_time r) ->
  read_report parse_time (write_report print_time r) = Some (as_read_report r).
Proof.
  intros (H1 & H2 & H3) Hm. unfold read_report, write_report. rewrite dec_fields_enc; [|unfold put_report; okf; apply rtype_lt|exact Hm].
  cbn [obind]. unfold put_report. rd_stamps. do 5 rd1. rewrite rtype_back. cbn [obind]. rd1. rewrite query_back by exact H3. cbn [obind].
  now rewrite unless_or.
Qed.
Lemma bookmark_rt b : bookmark_ok is_time b -> fits_memory (write_bookmark print_time b) ->
  read_bookmark parse_time (write_bookmark print_time b) = Some (as_read_bookmark b).
Proof.
  intros (H1 & H2 & H3 & H4) Hm. unfold read_bookmark, write_bookmark. rewrite dec_fields_enc; [|unfold put_bookmark; okf|exact Hm].
  cbn [obind]. unfold put_bookmark. rd1. rewrite (get_int_occ 2 _ (secs (fbm_created b))); [|occr|exact H1]. cbn [obind]. do 3 rd1.
  unfold as_read_bookmark. rewrite whole_back. destruct (fbm_query b) as [q|]; cbn [option_map]; [|reflexivity].
  rewrite query_back by exact H4. reflexivity.
Qed.
End Queries.
