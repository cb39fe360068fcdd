(** Round trip of the protobuf layer and of table metadata. *)
From Coq Require Import List NArith ZArith Znumtheory Lia Bool.
From Verif Require Import Bytes BytesFacts Value ValueFacts Log LogFacts Memtable Proto MdCodec.
Import ListNotations.
Local Open Scope N_scope.

(** *** Varints *)
Lemma varint_rt f : forall n rest, (0 < f)%nat -> n < 128 ^ N.of_nat f ->
  dec_varint_ f (enc_varint_ f n ++ rest) = Some (n, rest).
Proof.
  induction f as [|f IH]; intros n rest Hf Hn; [lia|].
  cbn [enc_varint_]. destruct (N.ltb_spec n 128) as [H|H].
  - cbn. destruct (N.ltb_spec n 128); [reflexivity|lia].
  - cbn [app dec_varint_]. pose proof (N.mod_upper_bound n 128 ltac:(lia)).
    destruct (N.ltb_spec (n mod 128 + 128) 128); [lia|].
    destruct f as [|f].
    + exfalso. cbn in Hn. lia.
    + rewrite IH; [|lia|].
      * f_equal. f_equal. rewrite N.add_sub. rewrite N.add_comm. symmetry. apply N.div_mod. lia.
      * apply N.div_lt_upper_bound; [lia|]. rewrite Nat2N.inj_succ, N.pow_succ_r' in Hn. lia.
Qed.
Lemma dec_varint_enc n rest : n < 2 ^ 64 -> dec_varint (enc_varint n ++ rest) = Some (n, rest).
Proof.
  intros H. unfold dec_varint, enc_varint. rewrite varint_rt.
  - destruct (N.ltb_spec n (2 ^ 64)); [reflexivity|lia].
  - lia.
  - eapply N.lt_trans; [exact H|]. reflexivity.
Qed.
Lemma enc_varint_nonempty n : (1 <= length (enc_varint n))%nat.
Proof. unfold enc_varint. cbn [enc_varint_]. destruct (n <? 128); cbn; lia. Qed.

(** *** Fields *)
Definition tag_ok (t : N) : Prop := 0 < t < 2 ^ 29.
Definition field_ok (f : N * wire) : Prop :=
  tag_ok (fst f) /\ match snd f with WV n => n < 2 ^ 64 | WB _ => True | WF _ => False end.

Lemma take_bytes_app a b : take_bytes (length a) (a ++ b) = Some (a, b).
Proof.
  unfold take_bytes. rewrite app_length. destruct (Nat.ltb_spec (length a + length b) (length a)); [lia|].
  now rewrite firstn_app_exact, skipn_app_exact.
Qed.

Lemma dec_field_enc f rest : field_ok f -> N.of_nat (length (enc_field f)) < 2 ^ 64 ->
  dec_field (enc_field f ++ rest) = Some (f, rest).
Proof.
  intros [[T0 T1] Hw] Hl. destruct f as [t w]. cbn [fst snd] in *. unfold enc_field in *. cbn [fst snd] in *.
  destruct w as [n|b|b]; [| |contradiction].
  - rewrite <- app_assoc. unfold dec_field. rewrite dec_varint_enc by lia.
    rewrite N.div_mul, N.mod_mul by lia. destruct (N.eqb_spec t 0); [lia|]. now rewrite dec_varint_enc.
  - rewrite <- !app_assoc. unfold dec_field. rewrite dec_varint_enc by lia.
    assert (E : (t * 8 + 2) / 8 = t).
    { rewrite N.div_add_l by lia. change (2 / 8) with 0. lia. }
    assert (M : (t * 8 + 2) mod 8 = 2).
    { rewrite N.add_comm, N.mod_add by lia. reflexivity. }
    rewrite E, M. destruct (N.eqb_spec t 0); [lia|].
    assert (Lb : N.of_nat (length b) < 2 ^ 64) by (rewrite !app_length in Hl; lia).
    rewrite dec_varint_enc by exact Lb.
    rewrite app_length. destruct (N.ltb_spec (N.of_nat (length b + length rest)) (N.of_nat (length b))); [lia|].
    rewrite Nat2N.id, take_bytes_app. reflexivity.
Qed.
Lemma enc_field_nonempty f : (1 <= length (enc_field f))%nat.
Proof.
  destruct f as [t w]. unfold enc_field. cbn [fst snd].
  destruct w; rewrite app_length; match goal with |- context [length (enc_varint ?k)] => pose proof (enc_varint_nonempty k) end; lia.
Qed.

Lemma dec_fields_enc_ fs : forall fuel, Forall field_ok fs -> N.of_nat (length (enc_fields fs)) < 2 ^ 64 ->
  (length (enc_fields fs) <= fuel)%nat -> dec_fields_ fuel (enc_fields fs) = Some fs.
Proof.
  induction fs as [|f fs IH]; intros fuel F L Hf.
  - now destruct fuel.
  - inversion F as [|? ? F1 F2]; subst.
    change (enc_fields (f :: fs)) with (enc_field f ++ enc_fields fs) in *.
    rewrite app_length in L, Hf. pose proof (enc_field_nonempty f).
    destruct fuel as [|fuel]; [lia|]. cbn [dec_fields_].
    destruct (enc_field f ++ enc_fields fs) as [|b l] eqn:E.
    + apply app_eq_nil in E as [E _]. rewrite E in H. cbn in H. lia.
    + rewrite <- E, dec_field_enc by (auto; lia). now rewrite IH by (auto; lia).
Qed.
Lemma dec_fields_enc fs : Forall field_ok fs -> N.of_nat (length (enc_fields fs)) < 2 ^ 64 ->
  dec_fields (enc_fields fs) = Some fs.
Proof. intros F L. unfold dec_fields. now apply dec_fields_enc_. Qed.

Lemma enc_fields_app a b : enc_fields (a ++ b) = enc_fields a ++ enc_fields b.
Proof. unfold enc_fields. now rewrite map_app, concat_app. Qed.
Lemma enc_fields_sub t b fs : In (t, WB b) fs -> (length b <= length (enc_fields fs))%nat.
Proof.
  induction fs as [|f fs IH]; intros H; [contradiction|].
  change (enc_fields (f :: fs)) with (enc_field f ++ enc_fields fs). rewrite app_length.
  destruct H as [->|H]; [|specialize (IH H); lia].
  unfold enc_field. cbn [fst snd]. rewrite !app_length. lia.
Qed.

(** *** Getting what was put *)
Lemma occ_app t a b : occurrences t (a ++ b) = occurrences t a ++ occurrences t b.
Proof. unfold occurrences. now rewrite filter_app, map_app. Qed.
Lemma occ_uint_ne t t' n : (t' =? t) = false -> occurrences t (put_uint t' n) = [].
Proof. intros H. unfold put_uint, occurrences. destruct (n =? 0); cbn; [reflexivity|]. now rewrite H. Qed.
Lemma occ_ouint_ne t t' (n : option N) : (t' =? t) = false -> occurrences t (put_ouint t' n) = [].
Proof. intros H. unfold put_ouint, occurrences. destruct n; cbn; [|reflexivity]. now rewrite H. Qed.
Lemma occ_bool_ne t t' b : (t' =? t) = false -> occurrences t (put_bool t' b) = [].
Proof. intros H. unfold put_bool, occurrences. destruct b; cbn; [|reflexivity]. now rewrite H. Qed.
Lemma occ_bytes_ne t t' b : (t' =? t) = false -> occurrences t (put_bytes t' b) = [].
Proof. intros H. unfold put_bytes, occurrences. destruct b; cbn; [reflexivity|]. now rewrite H. Qed.
Lemma occ_obytes_ne t t' b : (t' =? t) = false -> occurrences t (put_obytes t' b) = [].
Proof. intros H. unfold put_obytes, occurrences. destruct b; cbn; [|reflexivity]. now rewrite H. Qed.
Lemma occ_msg_ne t t' m : (t' =? t) = false -> occurrences t (put_msg t' m) = [].
Proof. intros H. unfold put_msg, occurrences. cbn. now rewrite H. Qed.
Lemma occ_rep_ne t t' ms : (t' =? t) = false -> occurrences t (put_rep t' ms) = [].
Proof.
  intros H. unfold put_rep, occurrences. induction ms as [|m ms IH]; cbn; [reflexivity|]. rewrite H. exact IH.
Qed.
Lemma occ_uint_eq t n : occurrences t (put_uint t n) = if n =? 0 then [] else [WV n].
Proof. unfold put_uint, occurrences. destruct (n =? 0); cbn; [reflexivity|]. now rewrite N.eqb_refl. Qed.
Lemma occ_ouint_eq t (n : option N) : occurrences t (put_ouint t n) = match n with None => [] | Some n => [WV n] end.
Proof. unfold put_ouint, occurrences. destruct n; cbn; [|reflexivity]. now rewrite N.eqb_refl. Qed.
Lemma occ_bool_eq t b : occurrences t (put_bool t b) = if b then [WV 1] else [].
Proof. unfold put_bool, occurrences. destruct b; cbn; [|reflexivity]. now rewrite N.eqb_refl. Qed.
Lemma occ_bytes_eq t b : occurrences t (put_bytes t b) = match b with [] => [] | _ => [WB b] end.
Proof. unfold put_bytes, occurrences. destruct b; cbn; [reflexivity|]. now rewrite N.eqb_refl. Qed.
Lemma occ_obytes_eq t b : occurrences t (put_obytes t b) = match b with None => [] | Some b => [WB b] end.
Proof. unfold put_obytes, occurrences. destruct b; cbn; [|reflexivity]. now rewrite N.eqb_refl. Qed.
Lemma occ_msg_eq t m : occurrences t (put_msg t m) = [WB (enc_fields m)].
Proof. unfold put_msg, occurrences. cbn. now rewrite N.eqb_refl. Qed.
Lemma occ_rep_eq t ms : occurrences t (put_rep t ms) = map (fun m => WB (enc_fields m)) ms.
Proof.
  unfold put_rep, occurrences. induction ms as [|m ms IH]; cbn; [reflexivity|]. rewrite N.eqb_refl. cbn. now rewrite IH.
Qed.

Lemma get_uint_occ t fs n : occurrences t fs = (if n =? 0 then [] else [WV n]) -> get_uint t fs = Some n.
Proof. unfold get_uint, get_ouint. intros ->. destruct (N.eqb_spec n 0) as [->|]; reflexivity. Qed.
Lemma get_ouint_occ t fs (n : option N) : occurrences t fs = match n with None => [] | Some n => [WV n] end -> get_ouint t fs = Some n.
Proof. unfold get_ouint. intros ->. now destruct n. Qed.
Lemma get_bool_occ t fs (b : bool) : occurrences t fs = (if b then [WV 1] else []) -> get_bool t fs = Some b.
Proof. unfold get_bool, get_uint, get_ouint. intros ->. now destruct b. Qed.
Lemma get_bytes_occ t fs (b : list N) : occurrences t fs = match b with [] => [] | _ => [WB b] end -> get_bytes t fs = Some b.
Proof. unfold get_bytes, get_obytes. intros ->. now destruct b. Qed.
Lemma get_obytes_occ t fs (b : option (list N)) : occurrences t fs = match b with None => [] | Some b => [WB b] end -> get_obytes t fs = Some b.
Proof. unfold get_obytes. intros ->. now destruct b. Qed.
Lemma get_msg_occ t fs b : occurrences t fs = [WB b] -> get_msg t fs = Some (Some b).
Proof. unfold get_msg. intros ->. cbn. now rewrite app_nil_r. Qed.
Lemma get_rep_occ t fs ms : occurrences t fs = map (fun m => WB (enc_fields m)) ms -> get_rep t fs = Some (map enc_fields ms).
Proof. unfold get_rep. intros ->. induction ms as [|m ms IH]; cbn; [reflexivity|]. now rewrite IH. Qed.

Ltac occ :=
  rewrite ?occ_app;
  repeat match goal with
    | |- context [occurrences ?t (put_uint ?u ?n)] => rewrite (occ_uint_ne t u n eq_refl)
    | |- context [occurrences ?t (put_ouint ?u ?n)] => rewrite (occ_ouint_ne t u n eq_refl)
    | |- context [occurrences ?t (put_bool ?u ?n)] => rewrite (occ_bool_ne t u n eq_refl)
    | |- context [occurrences ?t (put_bytes ?u ?n)] => rewrite (occ_bytes_ne t u n eq_refl)
    | |- context [occurrences ?t (put_obytes ?u ?n)] => rewrite (occ_obytes_ne t u n eq_refl)
    | |- context [occurrences ?t (put_msg ?u ?n)] => rewrite (occ_msg_ne t u n eq_refl)
    | |- context [occurrences ?t (put_rep ?u ?n)] => rewrite (occ_rep_ne t u n eq_refl)
    end;
  rewrite ?occ_uint_eq, ?occ_ouint_eq, ?occ_bool_eq, ?occ_bytes_eq, ?occ_obytes_eq, ?occ_msg_eq, ?occ_rep_eq;
  cbn [app]; rewrite ?app_nil_r; reflexivity.

(** *** Shapes of the messages *)
Lemma ok_one t w : tag_ok t -> match w with WV n => n < 2 ^ 64 | WB _ => True | WF _ => False end ->
  Forall field_ok [(t, w)].
Proof. intros T W. constructor; [split; assumption|constructor]. Qed.
Lemma ok_uint t n : tag_ok t -> n < 2 ^ 64 -> Forall field_ok (put_uint t n).
Proof. intros. unfold put_uint. destruct (n =? 0); [constructor|now apply ok_one]. Qed.
Lemma ok_ouint t (n : option N) : tag_ok t -> match n with Some n => n < 2 ^ 64 | None => True end -> Forall field_ok (put_ouint t n).
Proof. intros. unfold put_ouint. destruct n; [now apply ok_one|constructor]. Qed.
Lemma ok_bool t b : tag_ok t -> Forall field_ok (put_bool t b).
Proof. intros. unfold put_bool. destruct b; [apply ok_one; [assumption|reflexivity]|constructor]. Qed.
Lemma ok_bytes t b : tag_ok t -> Forall field_ok (put_bytes t b).
Proof. intros. unfold put_bytes. destruct b; [constructor|now apply ok_one]. Qed.
Lemma ok_obytes t b : tag_ok t -> Forall field_ok (put_obytes t b).
Proof. intros. unfold put_obytes. destruct b; [now apply ok_one|constructor]. Qed.
Lemma ok_msg t m : tag_ok t -> Forall field_ok (put_msg t m).
Proof. intros. now apply ok_one. Qed.
Lemma ok_rep t ms : tag_ok t -> Forall field_ok (put_rep t ms).
Proof. intros. unfold put_rep. rewrite Forall_map. apply Forall_forall. intros; split; [assumption|exact I]. Qed.
Ltac oks := repeat (apply Forall_app; split);
  first [apply ok_uint|apply ok_ouint|apply ok_bool|apply ok_bytes|apply ok_obytes|apply ok_msg|apply ok_rep];
  try (unfold tag_ok; lia); auto.

(** *** Representable metadata: every number fits its Rust type. *)
Definition u64_ok (n : N) : Prop := n < 2 ^ 64.
Definition part_rep (p : FullPart) : Prop :=
  u64_ok (fp_id p) /\ u64_ok (fp_size p) /\ u64_ok (fp_values p)
  /\ Forall kv_ok (fp_min p) /\ Forall kv_ok (fp_max p).
Definition level_rep (l : FullLevel) : Prop := u64_ok (fl_part_id l) /\ Forall part_rep (fl_parts l).
Definition stats_rep (s : FullStats) : Prop :=
  u64_ok (fs_resident s) /\ u64_ok (fs_on_disk s) /\ u64_ok (fs_logged s) /\ u64_ok (fs_written s)
  /\ u64_ok (fs_read s) /\ u64_ok (fs_space_amp s) /\ u64_ok (fs_write_amp s).
Definition opts_rep (o : FullOptions) : Prop :=
  u64_ok (fo_index_cols o) /\ u64_ok (fo_levels o) /\ u64_ok (fo_l0_max_parts o)
  /\ u64_ok (fo_l1_max_size_bytes o) /\ u64_ok (fo_level_size_multiplier o) /\ u64_ok (fo_max_log_length_bytes o)
  /\ u64_ok (fo_merge_max_l1_part_size_bytes o) /\ u64_ok (fo_merge_part_size_multiplier o)
  /\ match fo_merge_data_page_size_limit_bytes o with Some n => u64_ok n | None => True end
  /\ u64_ok (fo_merge_row_group_values_limit o) /\ u64_ok (fo_merge_array_size o)
  /\ u64_ok (fo_merge_chunk_size o) /\ u64_ok (fo_merge_array_page_size o) /\ u64_ok (fo_merge_max_page_size o).
Definition md_rep (m : FullMetadata) : Prop :=
  u64_ok (fm_version m) /\ u64_ok (fm_log_id m) /\ Forall level_rep (fm_levels m)
  /\ stats_rep (fm_stats m) /\ opts_rep (fm_opts m).

Lemma mod_of_to w v z : 0 < w -> w <= v -> to_unsigned v z mod 2 ^ w = to_unsigned w z.
Proof.
  intros Hw Hv. unfold to_unsigned. apply N2Z.inj.
  rewrite N2Z.inj_mod, N2Z.inj_pow. change (Z.of_N 2) with 2%Z.
  rewrite !Z2N.id by (apply Z.mod_pos_bound; apply Z.pow_pos_nonneg; lia).
  symmetry. apply Zmod_div_mod; try (apply Z.pow_pos_nonneg; lia).
  exists (2 ^ (Z.of_N v - Z.of_N w))%Z. rewrite <- Z.pow_add_r by lia. f_equal. lia.
Qed.

Lemma omap_enc {A B C} (e : A -> B) (d : B -> option C) (g : A -> C) l :
  (forall a, In a l -> d (e a) = Some (g a)) -> omap d (map e l) = Some (map g l).
Proof.
  induction l as [|a l IH]; intros H; [reflexivity|].
  cbn [map omap]. rewrite H by (left; reflexivity). cbn [obind]. rewrite IH by (intros; apply H; now right). reflexivity.
Qed.
Lemma omap_id {A B} (e : A -> B) (d : B -> option A) l :
  (forall a, In a l -> d (e a) = Some a) -> omap d (map e l) = Some l.
Proof. intros H. rewrite (omap_enc e d (fun a => a) l H). now rewrite map_id. Qed.

Definition small (fs : Fields) : Prop := N.of_nat (length (enc_fields fs)) < 2 ^ 64.
Lemma small_app a b : small (a ++ b) -> small a /\ small b.
Proof. unfold small. rewrite enc_fields_app, app_length. lia. Qed.
Lemma small_msg t m : small (put_msg t m) -> small m.
Proof.
  unfold small. intros H. pose proof (enc_fields_sub t (enc_fields m) (put_msg t m) (or_introl eq_refl)). lia.
Qed.
Lemma small_rep t ms m : In m ms -> small (put_rep t ms) -> small m.
Proof.
  unfold small. intros Hm H.
  pose proof (enc_fields_sub t (enc_fields m) (put_rep t ms) (in_map (fun m => (t, WB (enc_fields m))) _ _ Hm)). lia.
Qed.
Ltac smalls :=
  repeat match goal with H : small (_ ++ _) |- _ => apply small_app in H as [? H] end.

Lemma key_rt k : kv_ok k -> small (put_key k) -> get_key (enc_fields (put_key k)) = Some k.
Proof.
  intros K Sm. unfold get_key.
  assert (F : Forall field_ok (put_key k)).
  { destruct k; cbn [put_key]; first [apply ok_ouint|apply ok_obytes]; try (unfold tag_ok; lia);
      eapply N.lt_le_trans; try apply to_unsigned_bound; cbn; lia. }
  rewrite dec_fields_enc by assumption. cbn [obind]. clear F Sm.
  destruct k; cbn [put_key kv_ok] in *; cbn -[to_unsigned of_unsigned N.pow]; unfold u32.
  - rewrite !mod_of_to by lia. now rewrite of_unsigned_to_unsigned by (try lia; exact K).
  - rewrite !mod_of_to by lia. now rewrite of_unsigned_to_unsigned by (try lia; exact K).
  - rewrite !mod_of_to by lia. now rewrite of_unsigned_to_unsigned by (try lia; exact K).
  - now rewrite of_unsigned_to_unsigned by (try lia; exact K).
  - reflexivity.
  - now rewrite of_unsigned_to_unsigned by (try lia; exact K).
Qed.

Lemma part_rt p : part_rep p -> small (put_part p) -> get_part (enc_fields (put_part p)) = Some p.
Proof.
  intros (R1 & R2 & R3 & R4 & R5) Sm. unfold get_part. unfold u64_ok in *.
  rewrite dec_fields_enc; [|unfold put_part; oks|exact Sm].
  unfold put_part in *. smalls. cbn [obind].
  rewrite (get_uint_occ 1 _ (fp_id p)) by occ. cbn [obind].
  rewrite (get_uint_occ 2 _ (fp_size p)) by occ. cbn [obind].
  rewrite (get_uint_occ 3 _ (fp_values p)) by occ. cbn [obind].
  rewrite (get_rep_occ 4 _ (map put_key (fp_min p))) by occ. cbn [obind].
  rewrite (get_rep_occ 5 _ (map put_key (fp_max p))) by occ. cbn [obind].
  rewrite !map_map. rewrite Forall_forall in R4, R5.
  rewrite omap_id.
  2:{ intros k Hk. apply key_rt; [now apply R4|]. eapply small_rep; [apply in_map; exact Hk|]. eassumption. }
  cbn [obind]. rewrite omap_id.
  2:{ intros k Hk. apply key_rt; [now apply R5|]. eapply small_rep; [apply in_map; exact Hk|]. eassumption. }
  now destruct p.
Qed.
Lemma level_rt l : level_rep l -> small (put_level l) -> get_level (enc_fields (put_level l)) = Some l.
Proof.
  intros (R1 & R2) Sm. unfold get_level. unfold u64_ok in *.
  rewrite dec_fields_enc; [|unfold put_level; oks|exact Sm].
  unfold put_level in *. smalls. cbn [obind].
  rewrite (get_uint_occ 1 _ (fl_part_id l)) by occ. cbn [obind].
  rewrite (get_rep_occ 2 _ (map put_part (fl_parts l))) by occ. cbn [obind].
  rewrite map_map. rewrite Forall_forall in R2.
  rewrite omap_id.
  2:{ intros k Hk. apply part_rt; [now apply R2|]. eapply small_rep; [apply in_map; exact Hk|]. eassumption. }
  now destruct l.
Qed.
Lemma field_rt f : small (put_field f) -> get_field (enc_fields (put_field f)) = Some f.
Proof.
  intros Sm. unfold get_field.
  rewrite dec_fields_enc; [|unfold put_field; oks; destruct (ff_dt f); cbn; lia|exact Sm].
  unfold put_field in *. smalls. cbn [obind].
  rewrite (get_bytes_occ 1 _ (ff_name f)) by occ. cbn [obind].
  rewrite (get_uint_occ 2 _ (dt_tag (ff_dt f))) by occ. cbn [obind].
  rewrite (get_bool_occ 3 _ (ff_null f)) by occ. cbn [obind].
  destruct f as [n d u]. cbn. now destruct d.
Qed.
Lemma stats_rt s : stats_rep s -> small (put_stats s) -> get_stats (enc_fields (put_stats s)) = Some s.
Proof.
  intros (R1 & R2 & R3 & R4 & R5 & R6 & R7) Sm. unfold get_stats. unfold u64_ok in *.
  rewrite dec_fields_enc; [|unfold put_stats; oks|exact Sm].
  unfold put_stats in *. cbn [obind].
  rewrite (get_uint_occ 1 _ (fs_resident s)) by occ. cbn [obind].
  rewrite (get_uint_occ 2 _ (fs_on_disk s)) by occ. cbn [obind].
  rewrite (get_uint_occ 3 _ (fs_logged s)) by occ. cbn [obind].
  rewrite (get_uint_occ 4 _ (fs_written s)) by occ. cbn [obind].
  rewrite (get_uint_occ 5 _ (fs_read s)) by occ. cbn [obind].
  rewrite (get_uint_occ 6 _ (fs_space_amp s)) by occ. cbn [obind].
  rewrite (get_uint_occ 7 _ (fs_write_amp s)) by occ. cbn [obind].
  now destruct s.
Qed.
Lemma opts_rt o : opts_rep o -> small (put_opts o) -> get_opts (enc_fields (put_opts o)) = Some o.
Proof.
  intros (R1 & R2 & R3 & R4 & R5 & R6 & R7 & R8 & R9 & R10 & R11 & R12 & R13 & R14) Sm.
  unfold get_opts. unfold u64_ok in *.
  rewrite dec_fields_enc; [|unfold put_opts; oks|exact Sm].
  unfold put_opts in *. cbn [obind].
  rewrite (get_uint_occ 1 _ (fo_index_cols o)) by occ. cbn [obind].
  rewrite (get_bool_occ 2 _ (fo_is_replacing o)) by occ. cbn [obind].
  rewrite (get_uint_occ 3 _ (fo_levels o)) by occ. cbn [obind].
  rewrite (get_uint_occ 4 _ (fo_l0_max_parts o)) by occ. cbn [obind].
  rewrite (get_uint_occ 5 _ (fo_l1_max_size_bytes o)) by occ. cbn [obind].
  rewrite (get_uint_occ 6 _ (fo_level_size_multiplier o)) by occ. cbn [obind].
  rewrite (get_uint_occ 7 _ (fo_max_log_length_bytes o)) by occ. cbn [obind].
  rewrite (get_uint_occ 8 _ (fo_merge_max_l1_part_size_bytes o)) by occ. cbn [obind].
  rewrite (get_uint_occ 9 _ (fo_merge_part_size_multiplier o)) by occ. cbn [obind].
  rewrite (get_ouint_occ 10 _ (fo_merge_data_page_size_limit_bytes o)) by occ. cbn [obind].
  rewrite (get_uint_occ 11 _ (fo_merge_row_group_values_limit o)) by occ. cbn [obind].
  rewrite (get_uint_occ 12 _ (fo_merge_array_size o)) by occ. cbn [obind].
  rewrite (get_uint_occ 13 _ (fo_merge_chunk_size o)) by occ. cbn [obind].
  rewrite (get_uint_occ 14 _ (fo_merge_array_page_size o)) by occ. cbn [obind].
  rewrite (get_uint_occ 15 _ (fo_merge_max_page_size o)) by occ. cbn [obind].
  now destruct o.
Qed.

Definition with_version (v : N) (m : FullMetadata) : FullMetadata :=
  mkFullMetadata v (fm_log_id m) (fm_table_name m) (fm_schema m) (fm_levels m) (fm_stats m) (fm_opts m).

Lemma md_rt m : md_rep m -> small (put_md m) ->
  deserialize_md (serialize_md m) = Some (with_version (fm_version m mod 2 ^ 32) m).
Proof.
  intros (R1 & R2 & R3 & R4 & R5) Sm. unfold deserialize_md, serialize_md. unfold u64_ok in *.
  assert (V : fm_version m mod 2 ^ 32 < 2 ^ 32) by (apply N.mod_upper_bound; lia).
  rewrite dec_fields_enc; [|unfold put_md; oks; lia|exact Sm].
  unfold put_md in *. smalls. cbn [obind].
  rewrite (get_uint_occ 1 _ (fm_version m mod 2 ^ 32)) by occ. cbn [obind].
  rewrite (get_uint_occ 2 _ (fm_log_id m)) by occ. cbn [obind].
  rewrite (get_bytes_occ 3 _ (fm_table_name m)) by occ. cbn [obind].
  rewrite (get_msg_occ 4 _ (enc_fields (put_rep 1 (map put_field (fm_schema m))))) by occ. cbn [obind].
  rewrite dec_fields_enc; [|oks|eapply small_msg; eassumption]. cbn [obind].
  rewrite (get_rep_occ 1 _ (map put_field (fm_schema m))) by occ. cbn [obind].
  rewrite map_map. rewrite omap_id.
  2:{ intros f Hf. apply field_rt. eapply small_rep; [apply in_map; exact Hf|]. eapply small_msg. eassumption. }
  cbn [obind].
  rewrite (get_rep_occ 5 _ (map put_level (fm_levels m))) by occ. cbn [obind].
  rewrite map_map. rewrite Forall_forall in R3. rewrite omap_id.
  2:{ intros f Hf. apply level_rt; [now apply R3|]. eapply small_rep; [apply in_map; exact Hf|]. eassumption. }
  cbn [obind].
  rewrite (get_msg_occ 6 _ (enc_fields (put_stats (fm_stats m)))) by occ. cbn [obind].
  rewrite stats_rt; [|exact R4|eapply small_msg; eassumption]. cbn [obind].
  rewrite (get_msg_occ 7 _ (enc_fields (put_opts (fm_opts m)))) by occ. cbn [obind].
  rewrite opts_rt; [|exact R5|eapply small_msg; eassumption]. cbn [obind].
  unfold u32. rewrite N.mod_mod by lia. reflexivity.
Qed.

(** *** The encoding consists of bytes *)
Lemma is_bytes_varint f : forall n, is_bytes (enc_varint_ f n).
Proof.
  unfold is_bytes. induction f as [|f IH]; intros n; cbn [enc_varint_]; [constructor|].
  destruct (N.ltb_spec n 128); constructor; try lia; auto. Qed.
Definition wire_bytes (f : N * wire) : Prop := match snd f with WB b | WF b => is_bytes b | WV _ => True end.
Lemma is_bytes_fields fs : Forall wire_bytes fs -> is_bytes (enc_fields fs).
Proof.
  unfold is_bytes. induction 1 as [|[t w] fs Hf F IH]; [constructor|].
  change (enc_fields ((t, w) :: fs)) with (enc_field (t, w) ++ enc_fields fs).
  apply Forall_app. split; [|exact IH]. unfold enc_field. unfold wire_bytes in Hf. cbn [fst snd] in *.
  destruct w; repeat (apply Forall_app; split); try apply is_bytes_varint; auto.
Qed.
Lemma wb_uint t n : Forall wire_bytes (put_uint t n).
Proof. unfold put_uint. destruct (n =? 0); repeat constructor. Qed.
Lemma wb_ouint t (n : option N) : Forall wire_bytes (put_ouint t n).
Proof. unfold put_ouint. destruct n; repeat constructor. Qed.
Lemma wb_bool t b : Forall wire_bytes (put_bool t b).
Proof. unfold put_bool. destruct b; repeat constructor. Qed.
Lemma wb_bytes t b : is_bytes b -> Forall wire_bytes (put_bytes t b).
Proof. intros H. unfold put_bytes. destruct b; constructor; [exact H|constructor]. Qed.
Lemma wb_msg t m : Forall wire_bytes m -> Forall wire_bytes (put_msg t m).
Proof. intros H. constructor; [now apply is_bytes_fields|constructor]. Qed.
Lemma wb_rep t ms : Forall (Forall wire_bytes) ms -> Forall wire_bytes (put_rep t ms).
Proof.
  intros H. unfold put_rep. rewrite Forall_map. revert H. apply Forall_impl. intros m. apply is_bytes_fields.
Qed.
Ltac wbs := repeat (apply Forall_app; split);
  first [apply wb_uint|apply wb_ouint|apply wb_bool|apply wb_bytes|apply wb_msg|apply wb_rep]; auto.
Definition names_rep (m : FullMetadata) : Prop :=
  is_bytes (fm_table_name m) /\ Forall (fun f => is_bytes (ff_name f)) (fm_schema m).
Lemma wb_key k : kv_ok k -> Forall wire_bytes (put_key k).
Proof. intros K. destruct k; cbn [put_key put_ouint put_obytes]; constructor; try constructor; cbn; auto. apply K. Qed.
Lemma serialize_bytes m : md_rep m -> names_rep m -> is_bytes (serialize_md m).
Proof.
  intros (_ & _ & L & _) (T & Sc). apply is_bytes_fields. unfold put_md. wbs.
  - wbs. rewrite Forall_map. revert Sc. apply Forall_impl. intros f Hf. unfold put_field. wbs.
  - rewrite Forall_map. revert L. apply Forall_impl. intros l [_ Hl]. unfold put_level. wbs.
    rewrite Forall_map. revert Hl. apply Forall_impl. intros p (_ & _ & _ & P1 & P2). unfold put_part. wbs;
    rewrite Forall_map; [revert P1|revert P2]; apply Forall_impl; apply wb_key.
  - unfold put_stats. wbs.
  - unfold put_opts. wbs.
Qed.
