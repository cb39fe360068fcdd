(** Facts about accounts and tokens. *)
From Coq Require Import List NArith ZArith String Bool Lia.
From Verif Require Import AMap Kv KvFacts KvKeys KvKeysFacts Md Access Auth.
Import ListNotations.
Local Open Scope string_scope.

Definition skey : string := make_id_seq_key "accounts".
Lemma akey_inj a b : akey a = akey b -> a = b.
Proof. unfold akey, make_data_value_key. intros E. cbn in E. apply dec_inj. congruence. Qed.
Lemma ekey_inj a b : ekey a = ekey b -> a = b.
Proof. unfold ekey, make_index_key. intros E. cbn in E. congruence. Qed.
Lemma akey_ekey a e : akey a <> ekey e.
Proof. unfold akey, ekey, make_data_value_key, make_index_key. discriminate. Qed.
Lemma akey_skey a : akey a <> skey.
Proof. unfold akey, skey, make_data_value_key, make_id_seq_key. discriminate. Qed.
Lemma ekey_skey e : ekey e <> skey.
Proof. unfold ekey, skey, make_index_key, make_id_seq_key. discriminate. Qed.

Definition Inv (n : N) (db : Store) : Prop :=
  kget skey db = (if (n =? 0)%N then None else Some (VNum n)) /\
  (forall id v, kget (akey id) db = Some v -> exists a, v = VRec a /\ aa_id a = id /\ (1 <= id <= n)%N /\
     kget (ekey (aa_email a)) db = Some (VNum id)) /\
  (forall e v, kget (ekey e) db = Some v -> exists id a, v = VNum id /\ kget (akey id) db = Some (VRec a) /\ aa_email a = e).
Lemma Inv_nil : Inv 0 [].
Proof. split; [reflexivity|]. split; intros; discriminate. Qed.

Lemma by_id_kget n db id a : Inv n db -> acc_by_id id db = Ok a <-> kget (akey id) db = Some (VRec a).
Proof.
  intros (_ & R & _). unfold acc_by_id. destruct (kget (akey id) db) as [v|] eqn:G.
  - destruct (R id v G) as (a' & -> & _). split; congruence.
  - split; discriminate.
Qed.
Lemma by_id_range n db id a : Inv n db -> acc_by_id id db = Ok a -> aa_id a = id /\ (1 <= id <= n)%N /\ acc_by_email (aa_email a) db = Ok a.
Proof.
  intros I G. apply (by_id_kget n) in G; [|exact I]. assert (I0 := I). destruct I0 as (_ & R & _). destruct (R id _ G) as (a' & E & E1 & L & Em).
  assert (a' = a) by congruence. subst a'. split; [exact E1|]. split; [exact L|].
  unfold acc_by_email, get_index. rewrite Em. cbn [read_num]. now apply (by_id_kget n).
Qed.
Lemma by_email_spec n db e a : Inv n db -> acc_by_email e db = Ok a <-> acc_by_id (aa_id a) db = Ok a /\ aa_email a = e.
Proof.
  intros I. split.
  - unfold acc_by_email, get_index. destruct (kget (ekey e) db) as [v|] eqn:G; [|discriminate].
    assert (I0 := I). destruct I0 as (_ & R & X). destruct (X e v G) as (id & a' & -> & G' & Em). cbn [read_num]. intros H.
    assert (Ga : acc_by_id id db = Ok a') by now apply (by_id_kget n).
    assert (a' = a) by congruence. subst a'. destruct (by_id_range n db id a I Ga) as (E & _). rewrite E. auto.
  - intros (G & <-). now destruct (by_id_range n db _ a I G) as (_ & _ & E).
Qed.

Lemma create_cases n db email mk : Inv n db -> (forall id, aa_id (mk id) = id /\ aa_email (mk id) = email) ->
  (exists a, acc_by_email email db = Ok a) /\ acc_create email mk db = (Err AlreadyExists, db) \/
  (forall a, acc_by_email email db <> Ok a) /\
  exists db', acc_create email mk db = (Ok (mk (n + 1)%N), db') /\ Inv (n + 1) db' /\
    (forall j, acc_by_id j db' = if N.eqb j (n + 1) then Ok (mk (n + 1)%N) else acc_by_id j db) /\
    acc_by_id (n + 1) db = Err NotFound.
Proof.
  intros I Mk. assert (I0 := I). destruct I0 as (S1 & R & X). unfold acc_create, check_insert. cbn [flat List.concat map app forallb].
  destruct (kget (ekey email) db) as [v|] eqn:G.
  - left. cbn [andb]. split; [|reflexivity]. destruct (X email v G) as (id & a & -> & G' & Em). exists a.
    apply (by_email_spec n); [exact I|]. assert (Ga : acc_by_id id db = Ok a) by now apply (by_id_kget n).
    destruct (by_id_range n db id a I Ga) as (E & _). rewrite E. auto.
  - right. cbn [andb]. split. { intros a H. unfold acc_by_email, get_index in H. rewrite G in H. discriminate. }
    destruct (Mk (n + 1)%N) as (Mi & Me).
    assert (Fresh : kget (akey (n + 1)) db = None).
    { destruct (kget (akey (n + 1)) db) as [v|] eqn:Q; [|reflexivity]. destruct (R _ _ Q) as (? & _ & _ & L & _). lia. }
    assert (Q : next_seq skey db = (Ok (n + 1)%N, kput skey (VNum (n + 1)%N) db)).
    { unfold next_seq, next_from. rewrite S1. destruct (N.eqb_spec n 0) as [->|D]; reflexivity. }
    fold skey. rewrite Q. eexists. split; [reflexivity|]. unfold insert_index. cbn [flat List.concat map app fold_left].
    set (db1 := kput skey (VNum (n + 1)%N) db). set (db2 := kput (akey (n + 1)) (VRec (mk (n + 1)%N)) db1).
    assert (Ka : forall j, kget (akey j) (kput (ekey email) (VNum (n + 1)%N) db2) = if N.eqb j (n + 1) then Some (VRec (mk (n + 1)%N)) else kget (akey j) db).
    { intros j. rewrite kget_kput_ne by apply akey_ekey. unfold db2. destruct (N.eqb_spec j (n + 1)) as [->|D].
      - apply kget_kput_eq.
      - rewrite kget_kput_ne by (intros Z; apply akey_inj in Z; contradiction). unfold db1. apply kget_kput_ne, akey_skey. }
    assert (Ke : forall e, kget (ekey e) (kput (ekey email) (VNum (n + 1)%N) db2) = if String.eqb e email then Some (VNum (n + 1)%N) else kget (ekey e) db).
    { intros e. destruct (String.eqb_spec e email) as [->|D]; [apply kget_kput_eq|].
      rewrite kget_kput_ne by (intros Z; apply ekey_inj in Z; contradiction). unfold db2. rewrite kget_kput_ne by (intros Z; symmetry in Z; now apply akey_ekey in Z).
      unfold db1. apply kget_kput_ne, ekey_skey. }
    split; [|split].
    + split; [|split].
      * rewrite kget_kput_ne by (intros Z; symmetry in Z; now apply ekey_skey in Z). unfold db2.
        rewrite kget_kput_ne by (intros Z; symmetry in Z; now apply akey_skey in Z). unfold db1. rewrite kget_kput_eq.
        destruct (N.eqb_spec (n + 1) 0); [lia|reflexivity].
      * intros id v H. rewrite Ka in H. destruct (N.eqb_spec id (n + 1)) as [->|D].
        { exists (mk (n + 1)%N). split; [congruence|]. split; [exact Mi|]. split; [lia|]. rewrite Ke, Me, String.eqb_refl. reflexivity. }
        destruct (R id v H) as (a & -> & E & L & Em). exists a. split; [reflexivity|]. split; [exact E|]. split; [lia|].
        rewrite Ke. destruct (String.eqb_spec (aa_email a) email) as [Z|Z]; [rewrite Z in Em; congruence|exact Em].
      * intros e v H. rewrite Ke in H. destruct (String.eqb_spec e email) as [->|D].
        { exists (n + 1)%N, (mk (n + 1)%N). split; [congruence|]. split; [rewrite Ka, N.eqb_refl; reflexivity|exact Me]. }
        destruct (X e v H) as (id & a & -> & Ga & Em). exists id, a. split; [reflexivity|]. split; [|exact Em]. rewrite Ka.
        destruct (N.eqb_spec id (n + 1)) as [->|D2]; [congruence|exact Ga].
    + intros j. unfold acc_by_id at 1. rewrite Ka. destruct (N.eqb j (n + 1)); [reflexivity|]. reflexivity.
    + unfold acc_by_id. now rewrite Fresh.
Qed.

Lemma put_same n db id a a' : Inv n db -> acc_by_id id db = Ok a -> aa_id a' = id -> aa_email a' = aa_email a ->
  Inv n (kput (akey id) (VRec a') db) /\ forall j, acc_by_id j (kput (akey id) (VRec a') db) = if N.eqb j id then Ok a' else acc_by_id j db.
Proof.
  intros I G Ei Ee. assert (I0 := I). destruct I0 as (S1 & R & X). destruct (by_id_range n db id a I G) as (Ea & L & _).
  apply (by_id_kget n) in G; [|exact I].
  assert (Ka : forall j, kget (akey j) (kput (akey id) (VRec a') db) = if N.eqb j id then Some (VRec a') else kget (akey j) db).
  { intros j. destruct (N.eqb_spec j id) as [->|D]; [apply kget_kput_eq|]. apply kget_kput_ne. intros Z. apply akey_inj in Z. contradiction. }
  assert (Ke : forall e, kget (ekey e) (kput (akey id) (VRec a') db) = kget (ekey e) db).
  { intros e. apply kget_kput_ne. intros Z. symmetry in Z. now apply akey_ekey in Z. }
  split; [split; [|split]|].
  - rewrite kget_kput_ne; [exact S1|]. intros Z. symmetry in Z. now apply akey_skey in Z.
  - intros j v H. rewrite Ka in H. destruct (N.eqb_spec j id) as [->|D].
    + exists a'. split; [congruence|]. split; [exact Ei|]. split; [exact L|]. rewrite Ke, Ee. destruct (R id _ G) as (a2 & E2 & _ & _ & Em). congruence.
    + destruct (R j v H) as (b & -> & Eb & Lb & Em). exists b. rewrite Ke. auto.
  - intros e v H. rewrite Ke in H. destruct (X e v H) as (j & b & -> & Gb & Em).
    destruct (N.eq_dec j id) as [->|D].
    + exists id, a'. split; [reflexivity|]. split; [rewrite Ka, N.eqb_refl; reflexivity|congruence].
    + exists j, b. split; [reflexivity|]. split; [|exact Em]. rewrite Ka. apply N.eqb_neq in D. now rewrite D.
  - intros j. unfold acc_by_id at 1. rewrite Ka. destruct (N.eqb j id); reflexivity.
Qed.

Lemma update_cases n db id r : Inv n db ->
  match acc_by_id id db with
  | Err e => acc_update id r db = (Err e, db)
  | Ok a =>
    (exists e b, u_email r = Some e /\ acc_by_email e db = Ok b /\ aa_id b <> id) /\ acc_update id r db = (Err AlreadyExists, db) \/
    (forall e b, u_email r = Some e -> acc_by_email e db = Ok b -> aa_id b = id) /\
    exists db', acc_update id r db = (Ok (updated r a), db') /\ Inv n db' /\
      forall j, acc_by_id j db' = if N.eqb j id then Ok (updated r a) else acc_by_id j db
  end.
Proof.
  intros I. unfold acc_update. destruct (acc_by_id id db) as [a|e] eqn:G; [|reflexivity].
  destruct (by_id_range n db id a I G) as (Ea & L & Be). rewrite Ea.
  destruct (u_email r) as [e|] eqn:Ue.
  2:{ right. split; [intros; discriminate|]. cbn [check_update combine forallb update_index fold_left]. eexists. split; [reflexivity|].
      apply put_same with (a := a); auto. unfold updated. cbn. rewrite Ue. reflexivity. }
  cbn [check_update combine forallb fst snd okey_eqb]. rewrite Bool.andb_true_r.
  destruct (String.eqb_spec (ekey e) (ekey (aa_email a))) as [Q|Q].
  - apply ekey_inj in Q. subst e. cbn [orb]. right. split.
    { intros e b H Hb. assert (e = aa_email a) by congruence. subst e. assert (b = a) by congruence. subst b. exact Ea. }
    eexists. split; [reflexivity|]. unfold update_index. cbn [combine fold_left update_one fst snd okey_eqb]. rewrite String.eqb_refl.
    destruct (put_same n db id a (updated r a) I G) as (I' & B'); [exact Ea|unfold updated; cbn; rewrite Ue; reflexivity|].
    assert (Ex : kget (ekey (aa_email a)) (kput (akey id) (VRec (updated r a)) db) = Some (VNum id)).
    { rewrite kget_kput_ne by (intros Z; symmetry in Z; now apply akey_ekey in Z). apply (by_id_kget n) in G; [|exact I]. destruct I as (_ & R & _). destruct (R id _ G) as (a2 & E2 & _ & _ & Em). congruence. }
    set (d := kput (akey id) (VRec (updated r a)) db) in *.
    assert (K : forall k, kget k (kput (ekey (aa_email a)) (VNum id) d) = kget k d).
    { intros k. rewrite kget_kput. destruct (String.eqb_spec k (ekey (aa_email a))) as [->|D]; [now rewrite Ex|reflexivity]. }
    split.
    + destruct I' as (A1 & A2 & A3). split; [rewrite K; exact A1|]. split.
      * intros j v H. rewrite K in H. destruct (A2 j v H) as (b & B1 & B2 & B3 & B4). exists b. rewrite K. auto.
      * intros x v H. rewrite K in H. destruct (A3 x v H) as (j & b & B1 & B2 & B3). exists j, b. rewrite K. auto.
    + intros j. rewrite <- B'. unfold acc_by_id. now rewrite K.
  - cbn [orb]. destruct (kget (ekey e) db) as [v|] eqn:Ge.
    + left. split; [|reflexivity]. assert (I0 := I). destruct I0 as (_ & R & X). destruct (X e v Ge) as (j & b & -> & Gb & Em).
      assert (Bb : acc_by_id j db = Ok b) by now apply (by_id_kget n). destruct (by_id_range n db j b I Bb) as (Ej & _).
      exists e, b. split; [reflexivity|]. split.
      * apply (by_email_spec n); [exact I|]. rewrite Ej. auto.
      * rewrite Ej. intros ->. assert (a = b) by congruence. subst b. apply Q. now rewrite Em.
    + right. split. { intros e' b H Hb. assert (e' = e) by congruence. subst e'. unfold acc_by_email, get_index in Hb. rewrite Ge in Hb. discriminate. }
      eexists. split; [reflexivity|]. unfold update_index. cbn [combine fold_left]. unfold update_one. cbn [fst snd okey_eqb].
      apply String.eqb_neq in Q. rewrite Q. apply String.eqb_neq in Q.
      set (d := kput (akey id) (VRec (updated r a)) db).
      assert (Ka : forall j, kget (akey j) (kput (ekey e) (VNum id) (kdel (ekey (aa_email a)) d)) = if N.eqb j id then Some (VRec (updated r a)) else kget (akey j) db).
      { intros j. rewrite kget_kput_ne by apply akey_ekey. rewrite kget_kdel_ne by apply akey_ekey. unfold d.
        destruct (N.eqb_spec j id) as [->|D]; [apply kget_kput_eq|]. apply kget_kput_ne. intros Z. apply akey_inj in Z. contradiction. }
      assert (Ke : forall x, kget (ekey x) (kput (ekey e) (VNum id) (kdel (ekey (aa_email a)) d)) =
                 if String.eqb x e then Some (VNum id) else if String.eqb x (aa_email a) then None else kget (ekey x) db).
      { intros x. destruct (String.eqb_spec x e) as [->|D]; [apply kget_kput_eq|].
        rewrite kget_kput_ne by (intros Z; apply ekey_inj in Z; contradiction).
        destruct (String.eqb_spec x (aa_email a)) as [->|D2]; [apply kget_kdel_eq|].
        rewrite kget_kdel_ne by (intros Z; apply ekey_inj in Z; contradiction). unfold d. apply kget_kput_ne.
        intros Z. symmetry in Z. now apply akey_ekey in Z. }
      assert (Ue' : aa_email (updated r a) = e) by (unfold updated; cbn; now rewrite Ue).
      assert (Ui' : aa_id (updated r a) = id) by (unfold updated; cbn; exact Ea).
      assert (I0 := I). destruct I0 as (S1 & R & X).
      split; [split; [|split]|].
      * rewrite kget_kput_ne by (intros Z; symmetry in Z; now apply ekey_skey in Z).
        rewrite kget_kdel_ne by (intros Z; symmetry in Z; now apply ekey_skey in Z). unfold d.
        rewrite kget_kput_ne by (intros Z; symmetry in Z; now apply akey_skey in Z). exact S1.
      * intros j v H. rewrite Ka in H. destruct (N.eqb_spec j id) as [->|D].
        { exists (updated r a). split; [congruence|]. split; [exact Ui'|]. split; [exact L|]. rewrite Ke, Ue', String.eqb_refl. reflexivity. }
        destruct (R j v H) as (b & -> & Eb & Lb & Em). exists b. split; [reflexivity|]. split; [exact Eb|]. split; [exact Lb|].
        rewrite Ke. destruct (String.eqb_spec (aa_email b) e) as [Z|Z]; [rewrite Z in Em; congruence|].
        destruct (String.eqb_spec (aa_email b) (aa_email a)) as [Z2|Z2]; [|exact Em]. exfalso. rewrite Z2 in Em.
        apply (by_id_kget n) in G; [|exact I]. destruct (R id _ G) as (a2 & E2 & _ & _ & Em2). assert (a2 = a) by congruence. subst a2. rewrite Em in Em2. congruence.
      * intros x v H. rewrite Ke in H. destruct (String.eqb_spec x e) as [->|D].
        { exists id, (updated r a). split; [congruence|]. split; [rewrite Ka, N.eqb_refl; reflexivity|exact Ue']. }
        destruct (String.eqb_spec x (aa_email a)) as [->|D2]; [discriminate|].
        destruct (X x v H) as (j & b & -> & Gb & Em). exists j, b. split; [reflexivity|]. split; [|exact Em]. rewrite Ka.
        destruct (N.eqb_spec j id) as [->|D3]; [|exact Gb]. apply (by_id_kget n) in G; [|exact I]. congruence.
      * intros j. unfold acc_by_id at 1. rewrite Ka. destruct (N.eqb j id); reflexivity.
Qed.

Lemma delete_cases n db id : Inv n db ->
  match acc_by_id id db with
  | Err e => acc_delete id db = (Err e, db)
  | Ok a => exists db', acc_delete id db = (Ok a, db') /\ Inv n db' /\
      forall j, acc_by_id j db' = if N.eqb j id then Err NotFound else acc_by_id j db
  end.
Proof.
  intros I. unfold acc_delete. destruct (acc_by_id id db) as [a|e] eqn:G; [|reflexivity].
  eexists. split; [reflexivity|]. unfold delete_index. cbn [flat List.concat map app fold_left].
  assert (I0 := I). destruct I0 as (S1 & R & X). destruct (by_id_range n db id a I G) as (Ea & L & Be).
  assert (Ka : forall j, kget (akey j) (kdel (ekey (aa_email a)) (kdel (akey id) db)) = if N.eqb j id then None else kget (akey j) db).
  { intros j. rewrite kget_kdel_ne by apply akey_ekey. destruct (N.eqb_spec j id) as [->|D]; [apply kget_kdel_eq|].
    apply kget_kdel_ne. intros Z. apply akey_inj in Z. contradiction. }
  assert (Ke : forall x, kget (ekey x) (kdel (ekey (aa_email a)) (kdel (akey id) db)) = if String.eqb x (aa_email a) then None else kget (ekey x) db).
  { intros x. destruct (String.eqb_spec x (aa_email a)) as [->|D]; [apply kget_kdel_eq|].
    rewrite kget_kdel_ne by (intros Z; apply ekey_inj in Z; contradiction). apply kget_kdel_ne. intros Z. symmetry in Z. now apply akey_ekey in Z. }
  apply (by_id_kget n) in G; [|exact I]. destruct (R id _ G) as (a2 & E2 & _ & _ & Em2). assert (a2 = a) by congruence. subst a2.
  split; [split; [|split]|].
  - rewrite kget_kdel_ne by (intros Z; symmetry in Z; now apply ekey_skey in Z).
    rewrite kget_kdel_ne by (intros Z; symmetry in Z; now apply akey_skey in Z). exact S1.
  - intros j v H. rewrite Ka in H. destruct (N.eqb_spec j id) as [->|D]; [discriminate|].
    destruct (R j v H) as (b & -> & Eb & Lb & Em). exists b. split; [reflexivity|]. split; [exact Eb|]. split; [exact Lb|].
    rewrite Ke. destruct (String.eqb_spec (aa_email b) (aa_email a)) as [Z|Z]; [|exact Em]. rewrite Z in Em. rewrite Em in Em2. congruence.
  - intros x v H. rewrite Ke in H. destruct (String.eqb_spec x (aa_email a)) as [->|D]; [discriminate|].
    destruct (X x v H) as (j & b & -> & Gb & Em). exists j, b. split; [reflexivity|]. split; [|exact Em]. rewrite Ka.
    destruct (N.eqb_spec j id) as [->|D3]; [|exact Gb]. rewrite G in Gb. congruence.
  - intros j. unfold acc_by_id at 1. rewrite Ka. destruct (N.eqb j id); reflexivity.
Qed.

(** ** Calls *)
From Verif Require Import AuthSpec.
Lemma context_spec now tok s c : context now tok s = Some c ->
  exists t a, nth_error (as_issued s) tok = Some t /\ tk_key t = as_akey s /\ (now - 60 <= tk_exp t)%Z /\
    tk_org t = Some (cx_org c) /\ acc_by_id (tk_account t) (as_db s) = Ok a /\ cx_account c = aa_id a /\
    cx_role c = aa_role a /\ cx_orgs c = some_list (aa_orgs a) /\ cx_projects c = some_list (aa_projects a).
Proof.
  unfold context, parse_access, not_expired. destruct (nth_error (as_issued s) tok) as [t|] eqn:T; [|discriminate].
  destruct (key_dec (tk_key t) (as_akey s)) as [K|]; [|discriminate].
  destruct (Z.leb_spec (now - 60) (tk_exp t)) as [L|]; [|discriminate].
  destruct (tk_org t) as [o|] eqn:O; [|discriminate].
  destruct (acc_by_id (tk_account t) (as_db s)) as [a|] eqn:A; [|discriminate].
  intros H. injection H as <-. exists t, a. repeat split; auto.
Qed.
Lemma check_admin c p : check_permission c p = true -> cx_role c = Some GAdmin.
Proof. unfold check_permission. destruct (cx_role c) as [[]|]; [reflexivity|discriminate]. Qed.

Section Calls.
Variable valid_email : string -> bool.
Variable strong : string -> list string -> bool.
Variable ad rd : Z.
Notation act := (act valid_email strong ad rd).
Notation step := (step valid_email strong ad rd).
Notation run := (run valid_email strong ad rd).

(** The requests that a call may send to the store of accounts. *)
Definition requests (s : St) (o : Op) (id : N) (r : UReq) : Prop :=
  match o with
  | OUpdateName now tok name => (exists c, context now tok s = Some c /\ cx_account c = id) /\ r = mkUReq None None (Some (Some name)) None None None None None
  | OUpdateEmail now tok email pw =>
      (exists c a, context now tok s = Some c /\ cx_account c = id /\ acc_by_id id (as_db s) = Ok a /\ verify pw (aa_hash a) = true) /\ r = mkUReq None (Some email) None None None None None None
  | OUpdatePassword now tok pw new salt =>
      (exists c a, context now tok s = Some c /\ cx_account c = id /\ acc_by_id id (as_db s) = Ok a /\ verify pw (aa_hash a) = true) /\
      r = mkUReq (Some (make_hash new salt)) None None None None None None None
  | OSetPassword now tok new salt =>
      (exists c a, context now tok s = Some c /\ cx_account c = id /\ acc_by_id id (as_db s) = Ok a /\ aa_force_pw a = true) /\
      r = mkUReq (Some (make_hash new salt)) None None (Some false) None None None None
  | OSetEmail now tok email =>
      (exists c a, context now tok s = Some c /\ cx_account c = id /\ acc_by_id id (as_db s) = Ok a /\ aa_force_email a = true) /\
      r = mkUReq None (Some email) None None (Some false) None None None
  | OAccUpdate now tok id' q salt => id' = id /\ r = preq_update q salt /\ exists c, context now tok s = Some c /\ cx_role c = Some GAdmin
  | OMembership id' l => id' = id /\ r = mkUReq None None None None None None (Some l) None
  | _ => False
  end.
(** The account that a call may create. *)
Definition creates (s : St) (o : Op) (email : string) (mk : N -> Acc) : Prop :=
  match o with
  | OSignUp _ e pw _ name salt => e = email /\ mk = fun id => mkAcc id (make_hash pw salt) e name None false false [] []
  | OAccCreate now tok r salt => c_email r = email /\ mk = (fun id => mkAcc id (make_hash (c_password r) salt) (c_email r) (c_name r) (c_role r)
         (c_force_pw r) (c_force_email r) (c_orgs r) (c_projects r)) /\ exists c, context now tok s = Some c /\ cx_role c = Some GAdmin
  | _ => False
  end.
Lemma creates_ok s o email mk : creates s o email mk -> forall id, aa_id (mk id) = id /\ aa_email (mk id) = email.
Proof. destruct o; cbn; try contradiction; [intros (<- & ->)|intros (<- & -> & _)]; intros id; split; reflexivity. Qed.

Ltac crush :=
  repeat match goal with
  | |- context [match ?x with _ => _ end] => match x with context [match _ with _ => _ end] => fail 1 | _ => destruct x eqn:? end
  end.
Lemma db_moves s o :
  as_db (step o s) = as_db s
  \/ (exists email mk a, creates s o email mk /\ acc_create email mk (as_db s) = (Ok a, as_db (step o s)))
  \/ (exists id r a, requests s o id r /\ acc_update id r (as_db s) = (Ok a, as_db (step o s)))
  \/ (exists now tok id a c, o = OAccDelete now tok id /\ context now tok s = Some c /\ cx_role c = Some GAdmin /\
        acc_delete id (as_db s) = (Ok a, as_db (step o s))).
Proof.
  unfold Auth.step. destruct o; cbn [Auth.act].
  - unfold sign_up. destruct (negb (valid_email email)); [now left|]. destruct (negb (strong pw [email])); [now left|].
    destruct (acc_create email _ (as_db s)) as [[a|e] db] eqn:Q; [|now left]. right. left. eexists _, _, a. split; [cbn; split; reflexivity|exact Q].
  - left. unfold log_in. destruct (negb (valid_email email)); [reflexivity|]. destruct (acc_by_email email (as_db s)); [|reflexivity].
    destruct (verify pw (aa_hash a)); [|reflexivity]. destruct (log_in_org (aa_id a) cookie s); reflexivity.
  - left. unfold refresh. destruct (context now bearer s); [|reflexivity]. destruct (nth_error (as_issued s) tok); [|reflexivity].
    destruct (parse_refresh (as_rkey s) now t); reflexivity.
  - unfold update_name. destruct (context now tok s) as [c|] eqn:C; [|now left]. destruct (String.eqb name ""); [now left|].
    destruct (acc_update _ _ (as_db s)) as [[a|e] db] eqn:Q; [|now left]. right. right. left. eexists _, _, a. split; [|exact Q]. cbn. eauto.
  - unfold update_email. destruct (context now tok s) as [c|] eqn:C; [|now left]. destruct (negb (valid_email email)); [now left|].
    destruct (acc_by_id (cx_account c) (as_db s)) as [a|] eqn:A; [|now left]. destruct (verify pw (aa_hash a)) eqn:V; [|now left].
    unfold then_tokens. destruct (acc_update _ _ (as_db s)) as [[a'|e] db] eqn:Q; [|now left]. right. right. left. eexists _, _, a'. split; [|exact Q]. cbn.
    split; [|reflexivity]. exists c, a. auto.
  - unfold update_password. destruct (context now tok s) as [c|] eqn:C; [|now left].
    destruct (acc_by_id (cx_account c) (as_db s)) as [a|] eqn:A; [|now left]. destruct (verify pw (aa_hash a)) eqn:V; [|now left].
    destruct (strong new []); [|now left].
    unfold then_tokens. destruct (acc_update _ _ (as_db s)) as [[a'|e] db] eqn:Q; [|now left]. right. right. left. eexists _, _, a'. split; [|exact Q]. cbn.
    split; [|reflexivity]. exists c, a. auto.
  - unfold set_password. destruct (context now tok s) as [c|] eqn:C; [|now left].
    destruct (acc_by_id (cx_account c) (as_db s)) as [a|] eqn:A; [|now left]. destruct (aa_force_pw a) eqn:V; [|now left].
    destruct (strong new []); [|now left].
    unfold then_tokens. destruct (acc_update _ _ (as_db s)) as [[a'|e] db] eqn:Q; [|now left]. right. right. left. eexists _, _, a'. split; [|exact Q]. cbn.
    split; [|reflexivity]. exists c, a. auto.
  - unfold set_email. destruct (context now tok s) as [c|] eqn:C; [|now left].
    destruct (acc_by_id (cx_account c) (as_db s)) as [a|] eqn:A; [|now left]. destruct (aa_force_email a) eqn:V; [|now left].
    unfold then_tokens. destruct (acc_update _ _ (as_db s)) as [[a'|e] db] eqn:Q; [|now left]. right. right. left. eexists _, _, a'. split; [|exact Q]. cbn.
    split; [|reflexivity]. exists c, a. auto.
  - left. unfold switch_organization. destruct (context now tok s); [|reflexivity]. destruct (check_organization_permission _ _ _); [|reflexivity].
    destruct (existsb _ (as_orgs s)); reflexivity.
  - unfold accounts_create. destruct (context now tok s) as [c|] eqn:C; [|now left]. destruct (check_permission c PManageAccounts) eqn:P; [|now left].
    destruct (acc_create _ _ (as_db s)) as [[a|e] db] eqn:Q; [|now left]. right. left. eexists _, _, a. split; [cbn; split; [reflexivity|]; split; [reflexivity|]; exists c; split; [exact C|now apply check_admin in P]|exact Q].
  - unfold accounts_update. destruct (context now tok s) as [c|] eqn:C; [|now left]. destruct (check_permission c PManageAccounts) eqn:P; [|now left].
    destruct (acc_update _ _ (as_db s)) as [[a|e] db] eqn:Q; [|now left]. right. right. left. eexists _, _, a. split; [|exact Q]. cbn.
    split; [reflexivity|]. split; [reflexivity|]. exists c. split; [exact C|now apply check_admin in P].
  - unfold accounts_delete. destruct (context now tok s) as [c|] eqn:C; [|now left]. destruct (check_permission c PManageAccounts) eqn:P; [|now left].
    destruct (acc_delete _ (as_db s)) as [[a|e] db] eqn:Q; [|now left]. right. right. right. exists now, tok, id, a, c.
    split; [reflexivity|]. split; [exact C|]. split; [now apply check_admin in P|exact Q].
  - destruct (acc_update _ _ (as_db s)) as [[a|e] db] eqn:Q; [|now left]. right. right. left. eexists _, _, a. split; [|exact Q]. cbn. auto.
  - now left.
  - now left.
Qed.

(** What a call does to each account. *)
Lemma step_accounts n s o : Inv n (as_db s) -> exists n', (n <= n')%N /\ Inv n' (as_db (step o s)) /\
  forall id,
    acc_by_id id (as_db (step o s)) = acc_by_id id (as_db s)
    \/ (exists email mk, creates s o email mk /\ (n < id)%N /\ acc_by_id id (as_db s) = Err NotFound /\
          acc_by_id id (as_db (step o s)) = Ok (mk id))
    \/ (exists r a, requests s o id r /\ acc_by_id id (as_db s) = Ok a /\ acc_by_id id (as_db (step o s)) = Ok (updated r a))
    \/ (exists now tok c, o = OAccDelete now tok id /\ context now tok s = Some c /\ cx_role c = Some GAdmin /\
          acc_by_id id (as_db (step o s)) = Err NotFound).
Proof.
  intros I. destruct (db_moves s o) as [E|[(email & mk & a & Cr & Q)|[(id & r & a & Rq & Q)|(now & tok & id & a & c & Eo & Cx & Ro & Q)]]].
  - exists n. rewrite E. split; [lia|]. split; [exact I|]. auto.
  - destruct (create_cases n _ email mk I (creates_ok _ _ _ _ Cr)) as [(_ & X)|(_ & db' & X & I' & B & F)]; [congruence|].
    assert (db' = as_db (step o s)) by congruence. subst db'. exists (n + 1)%N. split; [lia|]. split; [exact I'|].
    intros j. rewrite B. destruct (N.eqb_spec j (n + 1)) as [->|D]; [|now left]. right. left. exists email, mk. split; [exact Cr|]. split; [lia|]. auto.
  - assert (U := update_cases n _ id r I). destruct (acc_by_id id (as_db s)) as [a0|e] eqn:A; [|congruence].
    destruct U as [(_ & X)|(_ & db' & X & I' & B)]; [congruence|]. assert (db' = as_db (step o s)) by congruence. subst db'.
    exists n. split; [lia|]. split; [exact I'|]. intros j. rewrite B. destruct (N.eqb_spec j id) as [->|D]; [|now left].
    right. right. left. exists r, a0. auto.
  - assert (U := delete_cases n _ id I). destruct (acc_by_id id (as_db s)) as [a0|e] eqn:A; [|congruence].
    destruct U as (db' & X & I' & B). assert (db' = as_db (step o s)) by congruence. subst db'.
    exists n. split; [lia|]. split; [exact I'|]. intros j. rewrite B. destruct (N.eqb_spec j id) as [->|D]; [|now left].
    right. right. right. exists now, tok, c. auto.
Qed.

Lemma run_app a b s : run (a ++ b)%list s = run b (run a s).
Proof. unfold Auth.run. apply fold_left_app. Qed.
Lemma run_inv ops : forall n s, Inv n (as_db s) -> exists n', (n <= n')%N /\ Inv n' (as_db (run ops s)).
Proof.
  induction ops as [|o ops IH]; intros n s I; [exists n; split; [lia|exact I]|].
  destruct (step_accounts n s o I) as (n1 & L1 & I1 & _). destruct (IH n1 _ I1) as (n2 & L2 & I2). exists n2. split; [lia|exact I2].
Qed.
(** A number that belongs to no account any more never belongs to one again. *)
Lemma gone ops : forall n s id, Inv n (as_db s) -> (id <= n)%N -> acc_by_id id (as_db s) = Err NotFound ->
  acc_by_id id (as_db (run ops s)) = Err NotFound.
Proof.
  induction ops as [|o ops IH]; intros n s id I L G; [exact G|].
  destruct (step_accounts n s o I) as (n1 & L1 & I1 & X). apply (IH n1 (step o s) id I1); [lia|].
  destruct (X id) as [->|[(? & ? & _ & Lt & _)|[(? & ? & _ & G' & _)|(? & ? & ? & _ & _ & _ & G')]]]; [exact G|lia|congruence|exact G'].
Qed.
Lemma role_kept ops : forall n s id a a', Inv n (as_db s) -> acc_by_id id (as_db s) = Ok a ->
  acc_by_id id (as_db (run ops s)) = Ok a' -> aa_role a' = aa_role a.
Proof.
  induction ops as [|o ops IH]; intros n s id a a' I G G'; [cbn in G'; congruence|].
  destruct (step_accounts n s o I) as (n1 & L1 & I1 & X). change (run (o :: ops) s) with (run ops (step o s)) in G'.
  destruct (X id) as [E|[(? & ? & _ & Lt & N0 & _)|[(r & a0 & _ & G0 & U)|(? & ? & ? & _ & _ & _ & D)]]].
  - rewrite G in E. now apply (IH n1 _ id a a' I1).
  - congruence.
  - assert (a0 = a) by congruence. subst a0. rewrite (IH n1 _ id _ a' I1 U G'). reflexivity.
  - assert (Rg : (id <= n1)%N). { destruct (by_id_range n _ id a I G) as (_ & R & _). lia. }
    rewrite (gone ops n1 _ id I1 Rg D) in G'. discriminate.
Qed.

(** Tokens. *)
Definition pair_of (s : St) (now : Z) (id org : N) : list Token :=
  [mkToken (as_akey s) (now + ad) id (Some org); mkToken (as_rkey s) (now + rd) id None].
Lemma issued_moves n s o : Inv n (as_db s) ->
  as_issued (step o s) = as_issued s
  \/ exists now id org, op_time o = Some now /\ as_issued (step o s) = (as_issued s ++ pair_of s now id org)%list /\
       (opens s (step o s) o id \/ exists i t, nth_error (as_issued s) i = Some t /\ tk_account t = id).
Proof.
  intros I.
  assert (Own : forall now tok c, context now tok s = Some c -> exists i t, nth_error (as_issued s) i = Some t /\ tk_account t = cx_account c).
  { intros now tok c C. destruct (context_spec now tok s c C) as (t & a & T & _ & _ & _ & A & Ea & _). exists tok, t. split; [exact T|].
    destruct (by_id_range n _ _ a I A) as (E & _). congruence. }
  assert (Tt : forall now c r, fst (then_tokens ad rd now c r s) = s \/ as_issued (fst (then_tokens ad rd now c r s)) = (as_issued s ++ pair_of s now (cx_account c) (cx_org c))%list).
  { intros now c r. unfold then_tokens. destruct (acc_update _ _ (as_db s)) as [[a|e] db]; [right; reflexivity|now left]. }
  unfold Auth.step. destruct o; cbn [Auth.act op_time].
  - unfold sign_up. destruct (negb (valid_email email)); [now left|]. destruct (negb (strong pw [email])); [now left|].
    set (mk := fun id => mkAcc id (make_hash pw salt) email name None false false [] []).
    destruct (create_cases n (as_db s) email mk I) as [(_ & X)|(_ & db' & X & I' & B & F)]; [intros id; split; reflexivity| |].
    + rewrite X. now left.
    + rewrite X. right. exists now, (n + 1)%N, 0%N. split; [reflexivity|]. split; [reflexivity|]. left. cbn [opens]. split; [exact F|].
      exists (mk (n + 1)%N). split; [|split; reflexivity]. unfold account_is. cbn. rewrite B, N.eqb_refl. reflexivity.
  - unfold log_in. destruct (negb (valid_email email)); [now left|]. destruct (acc_by_email email (as_db s)) as [a|] eqn:E; [|now left].
    destruct (verify pw (aa_hash a)) eqn:V; [|now left]. destruct (log_in_org (aa_id a) cookie s) as [org|]; [|now left].
    right. exists now, (aa_id a), org. split; [reflexivity|]. split; [reflexivity|]. left. cbn [opens]. exists a.
    apply (by_email_spec n) in E; [|exact I]. destruct E as (G & Ee). split; [exact G|]. split; [exact Ee|]. apply String.eqb_eq in V. unfold password_of. congruence.
  - unfold refresh. destruct (context now bearer s) as [c|]; [|now left]. destruct (nth_error (as_issued s) tok) as [t|] eqn:T; [|now left].
    unfold parse_refresh. destruct (key_dec (tk_key t) (as_rkey s)); [|now left]. destruct (not_expired now t); [|now left].
    right. exists now, (tk_account t), (cx_org c). split; [reflexivity|]. split; [reflexivity|]. right. eauto.
  - left. unfold update_name. destruct (context now tok s); [|reflexivity]. destruct (String.eqb name ""); [reflexivity|].
    destruct (acc_update _ _ (as_db s)) as [[a|e] db]; reflexivity.
  - unfold update_email. destruct (context now tok s) as [c|] eqn:C; [|now left]. destruct (negb (valid_email email)); [now left|].
    destruct (acc_by_id (cx_account c) (as_db s)) as [a|] eqn:A; [|now left]. destruct (verify pw (aa_hash a)) eqn:V; [|now left].
    destruct (Tt now c (mkUReq None (Some email) None None None None None None)) as [E|E]; [left; now rewrite E|]. right. exists now, (cx_account c), (cx_org c). eauto.
  - unfold update_password. destruct (context now tok s) as [c|] eqn:C; [|now left].
    destruct (acc_by_id (cx_account c) (as_db s)) as [a|] eqn:A; [|now left]. destruct (verify pw (aa_hash a)) eqn:V; [|now left].
    destruct (strong new []); [|now left].
    destruct (Tt now c (mkUReq (Some (make_hash new salt)) None None None None None None None)) as [E|E]; [left; now rewrite E|]. right. exists now, (cx_account c), (cx_org c). eauto.
  - unfold set_password. destruct (context now tok s) as [c|] eqn:C; [|now left].
    destruct (acc_by_id (cx_account c) (as_db s)) as [a|] eqn:A; [|now left]. destruct (aa_force_pw a) eqn:V; [|now left].
    destruct (strong new []); [|now left].
    destruct (Tt now c (mkUReq (Some (make_hash new salt)) None None (Some false) None None None None)) as [E|E]; [left; now rewrite E|]. right. exists now, (cx_account c), (cx_org c). eauto.
  - unfold set_email. destruct (context now tok s) as [c|] eqn:C; [|now left].
    destruct (acc_by_id (cx_account c) (as_db s)) as [a|] eqn:A; [|now left]. destruct (aa_force_email a) eqn:V; [|now left].
    destruct (Tt now c (mkUReq None (Some email) None None (Some false) None None None)) as [E|E]; [left; now rewrite E|]. right. exists now, (cx_account c), (cx_org c). eauto.
  - unfold switch_organization. destruct (context now tok s) as [c|] eqn:C; [|now left]. destruct (check_organization_permission _ _ _); [|now left].
    destruct (existsb _ (as_orgs s)); [|now left]. right. exists now, (cx_account c), org. split; [reflexivity|]. split; [reflexivity|]. right. eauto.
  - left. unfold accounts_create. destruct (context now tok s); [|reflexivity]. destruct (check_permission _ _); [|reflexivity].
    destruct (acc_create _ _ (as_db s)) as [[a|e] db]; reflexivity.
  - left. unfold accounts_update. destruct (context now tok s); [|reflexivity]. destruct (check_permission _ _); [|reflexivity].
    destruct (acc_update _ _ (as_db s)) as [[a|e] db]; reflexivity.
  - left. unfold accounts_delete. destruct (context now tok s); [|reflexivity]. destruct (check_permission _ _); [|reflexivity].
    destruct (acc_delete _ (as_db s)) as [[a|e] db]; reflexivity.
  - left. destruct (acc_update _ _ (as_db s)) as [[a|e] db]; reflexivity.
  - now left.
  - now left.
Qed.

Lemma fresh_inv ak rk pw salt : Inv 1 (as_db (fresh ak rk pw salt)).
Proof.
  unfold fresh. cbn [as_db]. set (mk := fun id => _).
  destruct (create_cases 0 [] "admin@admin.com" mk Inv_nil) as [((a & X) & _)|(_ & db' & X & I' & _)]; [intros; split; reflexivity|discriminate|].
  rewrite X. exact I'.
Qed.
End Calls.
