(** C114: the server can be started again. *)
From Coq Require Import List NArith String Bool Lia.
From Verif Require Import AMap Kv KvKeys KvKeysFacts KvFacts Md MdOps MdFrame MdIndex MdEntities MdSeq Start.
Import ListNotations.
Local Open Scope string_scope.

(** The store after the first start. *)
Definition first : Store := snd (server_start []).
Definition admin_key : Key := KData (NRoot RAccounts) ADMIN_ID.
Definition keeps (k : Key) (s s' : Store) : Prop := kg k s <> None -> kg k s' <> None.
Lemma keeps_refl k s : keeps k s s. Proof. intros H; exact H. Qed.
Lemma keeps_trans k a b c : keeps k a b -> keeps k b c -> keeps k a c. Proof. intros H1 H2 H. auto. Qed.
Lemma keeps_put k x v s s' : keeps k s s' -> keeps k s (kput x v s').
Proof. intros H G. unfold kg. rewrite kget_kput. destruct (String.eqb _ _); [discriminate|]. exact (H G). Qed.
Lemma keeps_only P k s s' : wf_key k = true -> ~ P k -> only P s s' -> keeps k s s'.
Proof. intros W Np O H. now rewrite (only_kg P s s' k O W Np). Qed.
Lemma keeps_insert k ks id : forall s s', keeps k s s' -> keeps k s (insert_index s' ks id).
Proof.
  unfold insert_index. induction (flat ks) as [|x l IH]; intros s s' H; [exact H|]. cbn [fold_left]. apply IH. now apply keeps_put.
Qed.
Lemma admin_not_index x : render admin_key <> make_index_key "accounts" "email" x.
Proof. unfold make_index_key. cbn. discriminate. Qed.
Lemma keeps_del x s s' : render admin_key <> x -> keeps admin_key s s' -> keeps admin_key s (kdel x s').
Proof. intros D H G. unfold kg. rewrite kget_kdel_ne by exact D. exact (H G). Qed.

Lemma next_keeps k x s r s1 : next_seq x s = (r, s1) -> keeps k s s1.
Proof.
  unfold next_seq, next_from. destruct (kget x s) as [v|]; [destruct (read_num v)|]; intros E; inversion E; subst; first [apply keeps_refl|apply keeps_put, keeps_refl].
Qed.
Lemma put_account_keeps a s s' : keeps admin_key s s' -> keeps admin_key s (put_account a s').
Proof. unfold put_account. apply keeps_put. Qed.
Lemma put_org_keeps a s s' : keeps admin_key s s' -> keeps admin_key s (put_org a s').
Proof. unfold put_org. apply keeps_put. Qed.
Lemma add_keeps m o r s : keeps admin_key s (snd (add_organization m o r s)).
Proof. unfold add_organization. destruct (account_by_id m s); [|apply keeps_refl]. destruct (existsb _ _); [apply keeps_refl|]. apply put_account_keeps, keeps_refl. Qed.
Lemma remove_keeps m o s : keeps admin_key s (snd (remove_organization m o s)).
Proof. unfold remove_organization. destruct (account_by_id m s); [|apply keeps_refl]. destruct (forallb _ _); [apply keeps_refl|]. apply put_account_keeps, keeps_refl. Qed.
Lemma change_keeps m o r s : keeps admin_key s (snd (change_organization_role m o r s)).
Proof. unfold change_organization_role. destruct (account_by_id m s); [|apply keeps_refl]. destruct (set_role _ _ _); [|apply keeps_refl]. apply put_account_keeps, keeps_refl. Qed.

Ltac stranger W := eapply keeps_only; [reflexivity| |apply md_frame, W]; cbn; unfold in_props, in_ns, in_rec, kind_ns, admin_key; cbn;
  let T := fresh "T" in intro T; repeat (destruct T as [T|T]); first [congruence|tauto|destruct T; congruence].
Lemma step_keeps snake o s : wf_op o = true -> AccountsOk s -> o <> OAccountDelete ADMIN_ID -> keeps admin_key s (md_step snake o s).
Proof.
  intros W Hx D. destruct o; try solve [stranger W]; cbn [md_step].
  - unfold account_create. destruct (check_insert _ _); [|apply keeps_refl].
    change (make_id_seq_key "accounts") with (render (KSeq (NRoot RAccounts))).
    destruct (next_seq _ s) as [[id|e] s1] eqn:E; [|apply keeps_refl]. cbn [snd]. apply keeps_insert, keeps_put.
    exact (next_keeps _ _ _ _ _ E).
  - unfold account_update. destruct (account_by_id id s) as [prev|]; [|apply keeps_refl]. cbv zeta.
    destruct (check_update _ _ _); [|apply keeps_refl]. cbn [snd].
    set (s1 := kput _ _ s). assert (K1 : keeps admin_key s s1) by apply keeps_put, keeps_refl.
    destruct email as [e|]; [|exact K1]. unfold update_index. cbn [combine fold_left]. unfold update_one. cbn [fst snd email_key].
    apply keeps_put. destruct (okey_eqb _ _); [exact K1|]. apply keeps_del; [apply admin_not_index|exact K1].
  - unfold account_delete. destruct (account_by_id id s) as [a|]; [|apply keeps_refl]. cbn [snd]. unfold delete_index. cbn [flat email_key List.concat map app fold_left].
    apply keeps_del; [apply admin_not_index|]. apply keeps_del; [|apply keeps_refl].
    change (make_data_value_key "accounts" id) with (render (KData (NRoot RAccounts) id)). unfold admin_key. intros E.
    apply render_inj in E; [|reflexivity|reflexivity]. injection E as <-. now apply D.
  - unfold org_create. destruct (check_insert _ _); [|apply keeps_refl].
    destruct (next_seq _ s) as [[id|e] s1] eqn:E; [|apply keeps_refl]. cbv zeta. set (s2 := insert_index _ _ _).
    assert (K2 : keeps admin_key s s2).
    { apply keeps_insert, put_org_keeps. exact (next_keeps _ _ _ _ _ E). }
    pose proof (add_keeps creator id OrgOwner s2) as K3. destruct (add_organization creator id OrgOwner s2) as [[?|?] s3]; [|apply keeps_refl].
    exact (keeps_trans _ _ _ _ K2 K3).
  - unfold org_add_member. destruct (org_by_id id s); [|apply keeps_refl]. destruct (existsb _ _); [apply keeps_refl|].
    pose proof (add_keeps member id r s) as K3. destruct (add_organization member id r s) as [[?|?] s3]; [|apply keeps_refl]. now apply put_org_keeps.
  - unfold org_remove_member. destruct (org_by_id id s); [|apply keeps_refl]. destruct (negb _); [apply keeps_refl|].
    pose proof (remove_keeps member id s) as K3. destruct (remove_organization member id s) as [[?|?] s3]; [|apply keeps_refl]. now apply put_org_keeps.
  - unfold org_change_role. destruct (org_by_id id s); [|apply keeps_refl]. destruct (set_role _ _ _); [|apply keeps_refl].
    pose proof (change_keeps member id r s) as K3. destruct (change_organization_role member id r s) as [[?|?] s3]; [|apply keeps_refl]. now apply put_org_keeps.
Qed.

Lemma first_accounts : AccountsOk first.
Proof.
  unfold first, server_start. cbn [account_by_id kget]. change (account_by_id ADMIN_ID []) with (@Err Account NotFound).
  cbv iota. assert (A := account_create_ok "admin@admin.com" [] [] (Indexed_nil (NRoot RAccounts) account_iks)).
  destruct (account_create "admin@admin.com" [] []) as [[a|e] s1]; [|exact A]. cbn [snd] in A.
  assert (B := md_step_accounts (fun x => x) (OOrgCreate (ac_id a) "My Organization") s1 eq_refl A). cbn [md_step] in B.
  now destruct (org_create (ac_id a) "My Organization" s1) as [[?|?] s2].
Qed.
Lemma run_accounts snake ops : forall s, forallb wf_op ops = true -> AccountsOk s -> AccountsOk (md_run snake ops s).
Proof.
  unfold md_run. induction ops as [|o l IH]; intros s W H; [exact H|]. cbn [forallb fold_left] in *. apply andb_prop in W as [W1 W2]. apply IH; [exact W2|]. now apply md_step_accounts.
Qed.
Lemma run_keeps snake ops : forall s, forallb wf_op ops = true -> AccountsOk s -> ~ In (OAccountDelete ADMIN_ID) ops -> keeps admin_key s (md_run snake ops s).
Proof.
  unfold md_run. induction ops as [|o l IH]; intros s W H D; [apply keeps_refl|]. cbn [forallb fold_left] in *. apply andb_prop in W as [W1 W2].
  eapply keeps_trans; [apply (step_keeps snake o s W1 H); intros ->; apply D; now left|]. apply IH; [exact W2|now apply md_step_accounts|intros Q; apply D; now right].
Qed.

(** After the first start, and any calls of the metadata API among which nobody deletes account
    number 1, the server can be started again, and the start changes nothing. *)
Theorem C114_restart_partial :
  forall snake ops, forallb wf_op ops = true -> ~ In (OAccountDelete 1) ops ->
    server_start (md_run snake ops first) = (Ok tt, md_run snake ops first).
Proof.
  intros snake ops W D. pose proof (run_keeps snake ops first W first_accounts D) as K. pose proof (run_accounts snake ops first W first_accounts) as A.
  set (s := md_run snake ops first) in *. unfold server_start.
  assert (H : kg admin_key s <> None) by (apply K; vm_compute; discriminate).
  destruct (kg admin_key s) as [v|] eqn:G; [|contradiction]. destruct (ix_data _ _ _ A _ _ G) as (r & ks & -> & Hk & _).
  destruct r; try discriminate. rewrite (proj2 (account_by_id_spec ADMIN_ID s a) G). reflexivity.
Qed.

(** Once account number 1 has been deleted, whatever else has happened, the server does not
    survive two starts: the second one fails, and so does every later one. *)
Lemma start_gone s : AccountsOk s -> account_by_id 1 s = Err NotFound -> (exists m, (1 <= m)%N /\ SeqIs (NRoot RAccounts) m s) ->
  let s1 := snd (server_start s) in
  account_by_id 1 s1 = Err NotFound /\ check_insert s1 [email_key "admin@admin.com"] = false.
Proof.
  intros A G (m & L & Q). unfold server_start. change (account_by_id ADMIN_ID s) with (account_by_id 1 s). rewrite G. unfold account_create.
  destruct (check_insert s [email_key "admin@admin.com"]) eqn:C; [|cbn [snd]; auto].
  change (make_id_seq_key "accounts") with (render (KSeq (NRoot RAccounts))).
  assert (E : next_seq (render (KSeq (NRoot RAccounts))) s = (Ok (m + 1)%N, kput (render (KSeq (NRoot RAccounts))) (VNum (m + 1)%N) s)).
  { unfold next_seq, next_from. unfold SeqIs, kg in Q. rewrite Q. reflexivity. }
  rewrite E. cbn [ac_id]. set (s1 := insert_index _ _ _).
  assert (K1 : kget (make_data_value_key "accounts" 1) s1 = None).
  { unfold s1, insert_index. cbn [flat email_key List.concat map app fold_left].
    rewrite kget_kput_ne by (unfold make_data_value_key, make_index_key; discriminate).
    rewrite kget_kput_ne.
    2:{ change (render admin_key <> render (KData (NRoot RAccounts) (m + 1))). intros Z. apply render_inj in Z; [|reflexivity|reflexivity]. injection Z as Z. unfold ADMIN_ID in Z. lia. }
    rewrite kget_kput_ne by (cbn; discriminate). unfold account_by_id in G. destruct (kget _ s) as [[| |[]]|]; congruence. }
  assert (E1 : kget (make_index_key "accounts" "email" "admin@admin.com") s1 = Some (VNum (m + 1)%N)).
  { unfold s1, insert_index. cbn [flat email_key List.concat map app fold_left]. apply kget_kput_eq. }
  assert (Done : forall s2, (forall k, kget (make_data_value_key "accounts" 1) s2 = None /\ kget (make_index_key "accounts" "email" k) s2 = kget (make_index_key "accounts" "email" k) s1) ->
     account_by_id 1 s2 = Err NotFound /\ check_insert s2 [email_key "admin@admin.com"] = false).
  { intros s2 H. destruct (H "admin@admin.com") as (H1 & H2). split; [unfold account_by_id; now rewrite H1|].
    unfold check_insert. cbn [flat email_key List.concat map app forallb]. now rewrite H2, E1. }
  unfold org_create. destruct (check_insert s1 _); [|apply Done; auto].
  destruct (next_seq _ s1) as [[id|e] s2] eqn:E2; [|apply Done; auto]. cbv zeta.
  set (s3 := insert_index _ _ _). unfold add_organization.
  assert (F : forall x, (forall y, make_data_value_key "organizations" id <> x /\ make_index_key "organizations" "name" y <> x) -> make_id_seq_key "organizations" <> x -> kget x s3 = kget x s1).
  { intros x Nx Ns. unfold s3, insert_index, put_org. cbn [flat org_name_key List.concat map app fold_left org_id].
    rewrite kget_kput_ne by (intros ->; exact (proj2 (Nx "My Organization") eq_refl)). rewrite kget_kput_ne by (intros ->; exact (proj1 (Nx "") eq_refl)).
    unfold next_seq, next_from in E2. destruct (kget (make_id_seq_key "organizations") s1) as [v|]; [destruct (read_num v)|]; inversion E2; subst; try reflexivity; apply kget_kput_ne; congruence. }
  assert (F1 : kget (make_data_value_key "accounts" 1) s3 = None).
  { rewrite F; [exact K1| |]; unfold make_data_value_key, make_index_key, make_id_seq_key; try (intros y; split); discriminate. }
  assert (F2 : forall k, kget (make_index_key "accounts" "email" k) s3 = kget (make_index_key "accounts" "email" k) s1).
  { intros k. apply F; unfold make_data_value_key, make_index_key, make_id_seq_key; try (intros y; split); discriminate. }
  destruct (account_by_id (m + 1) s3) as [a|e] eqn:Ga; [|apply Done; auto].
  destruct (existsb _ (ac_orgs a)); [apply Done; auto|]. cbn [snd]. apply Done. intros k. unfold put_account. cbn [ac_id].
  assert (Ei : ac_id a = (m + 1)%N).
  { unfold account_by_id in Ga. rewrite F in Ga; [| |].
    - unfold s1, insert_index in Ga. cbn [flat email_key List.concat map app fold_left] in Ga. rewrite kget_kput_ne in Ga by (unfold make_data_value_key, make_index_key; discriminate).
      rewrite kget_kput_eq in Ga. injection Ga as <-. reflexivity.
    - unfold make_data_value_key, make_index_key. intros y; split; discriminate.
    - unfold make_data_value_key, make_id_seq_key. discriminate. }
  rewrite Ei. split.
  - rewrite kget_kput_ne; [exact F1|]. change (render admin_key <> render (KData (NRoot RAccounts) (m + 1))). intros Z. apply render_inj in Z; [|reflexivity|reflexivity]. injection Z as Z. unfold ADMIN_ID in Z. lia.
  - rewrite kget_kput_ne by (unfold make_data_value_key, make_index_key; discriminate). apply F2.
Qed.
Lemma start_fails s : account_by_id 1 s = Err NotFound -> check_insert s [email_key "admin@admin.com"] = false ->
  server_start s = (Err AlreadyExists, s).
Proof. intros G C. unfold server_start, account_create. change (account_by_id ADMIN_ID s) with (account_by_id 1 s). now rewrite G, C. Qed.

Theorem C114_restart_refuted :
  forall snake ops, forallb wf_op ops = true -> account_by_id 1 (md_run snake ops first) = Err NotFound ->
    forall k, fst (server_start (starts (S k) (md_run snake ops first))) = Err AlreadyExists.
Proof.
  intros snake ops W G k. set (s := md_run snake ops first) in *.
  assert (Q : exists m, (1 <= m)%N /\ SeqIs (NRoot RAccounts) m s).
  { destruct (md_run_seq_up snake ops first (NRoot RAccounts) 1 W) as (m & Hm & L); [vm_compute; reflexivity|]. exists m. auto. }
  destruct (start_gone s (run_accounts snake ops first W first_accounts) G Q) as (G1 & C1).
  assert (St : forall j, starts (S j) s = snd (server_start s)).
  { induction j as [|j IH]; [reflexivity|]. cbn [starts]. cbn [starts] in IH. rewrite IH. now rewrite (start_fails _ G1 C1). }
  rewrite St. now rewrite (start_fails _ G1 C1).
Qed.
(** If an organization still has the name it got at the first start, the first start fails too. *)
Theorem C114_first_restart_refuted :
  forall s, account_by_id 1 s = Err NotFound -> kget (make_index_key "organizations" "name" "My Organization") s <> None ->
    fst (server_start s) <> Ok tt.
Proof.
  intros s G Hn. unfold server_start. change (account_by_id ADMIN_ID s) with (account_by_id 1 s). rewrite G. unfold account_create.
  destruct (check_insert s [email_key "admin@admin.com"]); [|discriminate].
  destruct (next_seq (make_id_seq_key "accounts") s) as [[id|e] s1] eqn:E; [|discriminate]. cbn [ac_id]. set (s2 := insert_index _ _ _).
  assert (C : check_insert s2 [org_name_key "My Organization"] = false).
  { unfold check_insert. cbn [flat org_name_key List.concat map app forallb]. unfold s2, insert_index. cbn [flat email_key List.concat map app fold_left].
    rewrite kget_kput_ne by (unfold make_index_key; discriminate). rewrite kget_kput_ne by (unfold make_index_key, make_data_value_key; discriminate).
    unfold next_seq, next_from in E.
    assert (Z : kget (make_index_key "organizations" "name" "My Organization") s1 = kget (make_index_key "organizations" "name" "My Organization") s).
    { destruct (kget (make_id_seq_key "accounts") s) as [v|]; [destruct (read_num v)|]; inversion E; subst; try reflexivity; apply kget_kput_ne; unfold make_index_key, make_id_seq_key; discriminate. }
    rewrite Z. now destruct (kget (make_index_key "organizations" "name" "My Organization") s). }
  unfold org_create. rewrite C. discriminate.
Qed.
(** The first start makes the account and the organization; the server starts again after other
    calls; after the deletion of account 1 it does not, and a second account has been made. *)
Example C114_witness :
  fst (server_start []) = Ok tt /\ account_by_id 1 first = Ok (mkAccount 1 "admin@admin.com" [(1%N, OrgOwner)]) /\
  org_by_id 1 first = Ok (mkOrg 1 "My Organization" [(1%N, OrgOwner)]) /\
  (let s := md_run (fun x => x) [OAccountCreate "a@b.c" []; OOrgUpdate 1 (Some "Ours"); OAccountUpdate 1 (Some "root@b.c") None] first in
   fst (server_start s) = Ok tt /\
   let d := md_run (fun x => x) [OAccountDelete 1] s in
   account_by_id 1 d = Err NotFound /\ fst (server_start d) = Ok tt /\ fst (server_start (starts 1 d)) = Err AlreadyExists) /\
  (let d := md_run (fun x => x) [OAccountDelete 1] first in
   fst (server_start d) = Err AlreadyExists /\ account_by_id 2 (starts 1 d) = Ok (mkAccount 2 "admin@admin.com" [])).
Proof. vm_compute. repeat split; reflexivity. Qed.

Print Assumptions C114_restart_partial.
Print Assumptions C114_restart_refuted.
Print Assumptions C114_first_restart_refuted.
