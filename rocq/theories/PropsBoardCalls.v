(** C138: requests about dashboards, saved reports and bookmarks. *)
From Coq Require Import List NArith ZArith String Bool Lia.
From Verif Require Import AMap Kv KvKeys Bytes BytesFacts Value SavedQuery SavedQueryFacts RecCodec RecSpec Boards BoardsSpec BoardsInv PropsBoards
  Md Access Auth AuthSpec AuthFacts AuthStatus AuthStatusSpec AuthStatusFacts PropsAuth TimeText TimeTextSpec PropsTimeText PropsSavedTimes
  PropsAccess BoardCalls BoardCallsSpec.
Import ListNotations.
Local Open Scope N_scope.

Section Server.
(** Which e-mail addresses and passwords pass the checks, and how long tokens last. *)
Variable valid_email : string -> bool.
Variable strong : string -> list string -> bool.
Variable ad rd : Z.
(** The server's first keys and the administrator's first password. *)
Variable ak rk : list N.
Variable admin_pw : string.
Variable admin_salt : N.
(** The server after [h], from its first start. *)
Notation after h := (board_serve valid_email strong ad rd h (fresh ak rk admin_pw admin_salt)).
Notation accounts h := (fst (after h)).
Notation records h := (snd (after h)).
Notation hist := (board_history Holds).
Notation run ops := (board_run print_time parse_time ops []).

(** ** The two halves of the server *)
Lemma serve_snoc h e : after (h ++ [e])%list = serve_one valid_email strong ad rd (after h) e.
Proof. unfold board_serve. now rewrite fold_left_app. Qed.
Lemma step_bound n s o : Inv n (as_db s) -> exists n', n' <= n + 1 /\ Inv n' (as_db (step valid_email strong ad rd o s)).
Proof.
  intros I. destruct (db_moves valid_email strong ad rd s o) as [E|[(email & mk & a & Cr & Q)|[(id & r & a & Rq & Q)|(now & tok & id & a & c & Eo & Cx & Ro & Q)]]].
  - exists n. rewrite E. split; [lia|exact I].
  - destruct (create_cases n _ email mk I (creates_ok _ _ _ _ Cr)) as [(_ & X)|(_ & db' & X & I' & B & F)]; [congruence|].
    assert (db' = as_db (step valid_email strong ad rd o s)) by congruence. subst db'. exists (n + 1)%N. split; [lia|exact I'].
  - assert (U := update_cases n _ id r I). destruct (acc_by_id id (as_db s)) as [a0|e] eqn:A; [|congruence].
    destruct U as [(_ & X)|(_ & db' & X & I' & B)]; [congruence|]. assert (db' = as_db (step valid_email strong ad rd o s)) by congruence. subst db'.
    exists n. split; [lia|exact I'].
  - assert (U := delete_cases n _ id I). destruct (acc_by_id id (as_db s)) as [a0|e] eqn:A; [|congruence].
    destruct U as (db' & X & I' & B). assert (db' = as_db (step valid_email strong ad rd o s)) by congruence. subst db'.
    exists n. split; [lia|exact I'].
Qed.
Lemma accounts_inv h : exists n, n <= N.of_nat (List.length h) + 1 /\ Inv n (as_db (accounts h)).
Proof.
  induction h as [|e h IH] using rev_ind.
  - exists 1. split; [cbn; lia|]. apply fresh_inv.
  - destruct IH as (n & L & I). rewrite serve_snoc, app_length. cbn [List.length]. destruct e as [o|q]; cbn [serve_one fst].
    + destruct (step_bound n _ o I) as (n' & L' & I'). exists n'. split; [lia|exact I'].
    + exists n. split; [lia|exact I].
Qed.
Definition effect (a : N) (now : Z) (k : Ask) : list BoardOp :=
  match k with
  | QDashCreate p tags name descr panels => [BDashCreate p (mkDashCreate a tags name descr panels) now]
  | QDashUpdate p id tags name descr panels => [BDashUpdate p id (mkDashUpdate a tags name descr panels) now]
  | QDashDelete p id => [BDashDelete p id]
  | QRepCreate p tags name descr typ query => [BRepCreate p (mkRepCreate a tags name descr typ query) now]
  | QRepUpdate p id tags name descr typ query => [BRepUpdate p id (mkRepUpdate a tags name descr typ query) now]
  | QRepDelete p id => [BRepDelete p id]
  | QBookCreate p query drawn => [BBookCreate p a query drawn now]
  | QDashGet _ _ | QDashList _ | QRepGet _ _ | QRepList _ | QBookGet _ _ => []
  end.
Lemma snd_lift A (f : A -> Reply) x : snd (lift f x) = snd x.
Proof. destruct x as [[|] s]; reflexivity. Qed.
Lemma call_effect a now k s : snd (board_call a now k s) = board_run print_time parse_time (effect a now k) s.
Proof. destruct k; cbn [board_call effect board_run fold_left board_step]; rewrite snd_lift; reflexivity. Qed.
Lemma effect_ok a now k : u64 a -> time_ok now -> ask_ok k -> Forall (board_op_ok Holds) (effect a now k).
Proof. intros A T K. destruct k; cbn [effect]; repeat constructor; cbn in *; try tauto; destruct T; assumption. Qed.
Lemma effect_length a now k : (List.length (effect a now k) <= 1)%nat.
Proof. destruct k; cbn; lia. Qed.

(** ** Who asks *)
Lemma listed_some R (l : list (N * R)) id r : listed (some_list l) id r <-> listed (Some l) id r.
Proof.
  destruct l as [|x l]; [|reflexivity]. unfold listed; cbn [some_list]. split; intros ([|] & b & E & _); discriminate.
Qed.
Lemma role_allowed i a org k : allowed (mkCtx i org (aa_role a) (some_list (aa_orgs a)) (some_list (aa_projects a))) (call_for k) = true <->
  has_role a org (project_of k) (lowest_role k).
Proof.
  rewrite C41_calls_exact. cbn [cx_org].
  assert (E : needs org (call_for k) = NProject (project_of k) (lowest_role k)) by (destruct k; reflexivity).
  rewrite E. unfold meets, has_role, in_org, in_project. cbn [cx_org cx_orgs cx_projects cx_role].
  rewrite !listed_some. setoid_rewrite listed_some. reflexivity.
Qed.
Lemma token_unique sa q id org id' org' : token_of sa q id org -> token_of sa q id' org' -> id = id' /\ org = org'.
Proof.
  intros (k & t & E1 & E2 & _ & _ & E3 & E4) (k' & t' & F1 & F2 & _ & _ & F3 & F4). rewrite E1 in F1. injection F1 as <-.
  rewrite E2 in F2. injection F2 as <-. rewrite E4 in F4. injection F4 as <-. split; congruence.
Qed.
Lemma asks_unique sa q id org a id' org' a' : asks sa q id org a -> asks sa q id' org' a' -> id = id' /\ org = org' /\ a = a'.
Proof.
  intros (T & A) (T' & A'). destruct (token_unique _ _ _ _ _ _ T T') as (<- & <-). unfold account_is in *. repeat split; congruence.
Qed.
Lemma sends_body k : takes_body k = true <-> sends k.
Proof. destruct k; cbn; split; auto; try discriminate; intros []. Qed.
Definition proceeds (sa : Auth.St) (q : BRequest) (id org : N) (a : Acc) : Prop :=
  asks sa q id org a /\ (sends (bq_ask q) -> bq_parses q = true) /\ has_role a org (project_of (bq_ask q)) (lowest_role (bq_ask q)).
Lemma handle_cases n sa q : Inv n (as_db sa) ->
  (exists e m, (forall s, board_handle q sa s = (inr e, s)) /\ fst (api_error e) = m /\ m <> 0 /\ (forall s, refused sa s q m)
     /\ (forall s m', refused sa s q m' -> m' = m) /\ forall id org a, ~ proceeds sa q id org a)
  \/ (exists id org a, id <= n /\ proceeds sa q id org a /\ (forall s, board_handle q sa s = board_call id (bq_now q) (bq_ask q) s)
     /\ forall s m, refused sa s q m <-> m = 404 /\ missing s id (bq_ask q)).
Proof.
  intros I. unfold board_handle.
  destruct (context_cases n sa (bq_now q / 1000000000)%Z (bq_bearer q) true KProfile I) as [(No & e & C & St)|[(id & org & T & G & C)|(id & org & a & T & A & Ei & C)]].
  - change (forall id org, ~ token_of sa q id org) in No. left. exists e, 401. rewrite C, St.
    split; [reflexivity|]. split; [reflexivity|]. split; [discriminate|]. split; [intro; now constructor|]. split.
    + intros s m' X. inversion X; subst; auto; exfalso; try (match goal with H : asks _ _ _ _ _ |- _ => destruct H as (H & _) end); eapply No; eassumption.
    + intros id org a ((T & _) & _). now apply No in T.
  - change (token_of sa q id org) in T. left. exists (PMetadata MNotFound), 404. rewrite C.
    split; [reflexivity|]. split; [reflexivity|]. split; [discriminate|]. split; [intro; eapply account_gone; eassumption|].
    assert (Out : forall id' org' a', ~ asks sa q id' org' a').
    { intros id' org' a' (T' & A'). destruct (token_unique _ _ _ _ _ _ T T') as (<- & <-). unfold no_account, account_is in *. congruence. }
    split.
    + intros s m' X. inversion X; subst; auto; exfalso; [eapply H; eassumption| |]; eapply Out; eassumption.
    + intros id' org' a' (X & _). now apply Out in X.
  - change (token_of sa q id org) in T. rewrite C. assert (As : asks sa q id org a) by (split; assumption).
    assert (Uni : forall id' org' a', asks sa q id' org' a' -> id' = id /\ org' = org /\ a' = a) by (intros id' org' a' X; exact (asks_unique _ _ _ _ _ _ _ _ X As)).
    assert (There : forall id' org', token_of sa q id' org' -> ~ no_account (as_db sa) id').
    { intros id' org' T' G. destruct (token_unique _ _ _ _ _ _ T T') as (<- & <-). unfold no_account, account_is in *. congruence. }
    assert (Is : exists id org, token_of sa q id org) by eauto.
    assert (Rg : id <= n) by (destruct (by_id_range n _ _ _ I A) as (_ & R & _); lia).
    rewrite Ei. cbn [cx_account].
    assert (Bd : negb (takes_body (bq_ask q)) || bq_parses q = true <-> (sends (bq_ask q) -> bq_parses q = true)).
    { rewrite <- sends_body. destruct (takes_body (bq_ask q)), (bq_parses q); cbn; intuition congruence. }
    destruct (negb (takes_body (bq_ask q)) || bq_parses q) eqn:B.
    + assert (B' : sends (bq_ask q) -> bq_parses q = true) by now apply Bd.
      pose proof (role_allowed id a org (bq_ask q)) as R.
      destruct (allowed _ _) eqn:Al.
      * assert (H : has_role a org (project_of (bq_ask q)) (lowest_role (bq_ask q))) by now apply R.
        right. exists id, org, a. split; [exact Rg|]. split; [now repeat split|]. split; [reflexivity|]. intros s m. split.
        -- intros X. inversion X as [Hn|i o Ht Hg|i o x Ha Hs Hp|i o x Ha Hp Hr|i o x Ha Hp Hr Hm]; subst.
           ++ destruct Is as (i & o & Ht). now apply Hn in Ht.
           ++ now apply There in Ht.
           ++ specialize (B' Hs). congruence.
           ++ destruct (Uni _ _ _ Ha) as (-> & -> & ->). contradiction.
           ++ destruct (Uni _ _ _ Ha) as (-> & -> & ->). auto.
        -- intros (-> & M). eapply not_there; eassumption.
      * assert (H : ~ has_role a org (project_of (bq_ask q)) (lowest_role (bq_ask q))) by (intro X; apply R in X; discriminate).
        left. exists PForbidden, 403. split; [reflexivity|]. split; [reflexivity|]. split; [discriminate|]. split; [intro; eapply no_role; eassumption|]. split.
        -- intros s m' X. inversion X as [Hn|i o Ht Hg|i o x Ha Hs Hp|i o x Ha Hp Hr|i o x Ha Hp Hr Hm]; subst; auto.
           ++ destruct Is as (i & o & Ht). now apply Hn in Ht.
           ++ now apply There in Ht.
           ++ specialize (B' Hs). congruence.
           ++ destruct (Uni _ _ _ Ha) as (-> & -> & ->). contradiction.
        -- intros id' org' a' (X & _ & Y). destruct (Uni _ _ _ X) as (-> & -> & ->). contradiction.
    + assert (B' : sends (bq_ask q) /\ bq_parses q = false).
      { rewrite <- sends_body. destruct (takes_body (bq_ask q)), (bq_parses q); cbn in B; try discriminate. auto. }
      destruct B' as (Bs & Bp). left. exists PBadRequest, 400. split; [reflexivity|]. split; [reflexivity|]. split; [discriminate|].
      split; [intro; eapply bad_body; eassumption|]. split.
      * intros s m' X. inversion X as [Hn|i o Ht Hg|i o x Ha Hs Hp|i o x Ha Hp Hr|i o x Ha Hp Hr Hm]; subst; auto.
        -- destruct Is as (i & o & Ht). now apply Hn in Ht.
        -- now apply There in Ht.
        -- specialize (Hp Bs). congruence.
        -- specialize (Hp Bs). congruence.
      * intros id' org' a' (_ & Y & _). specialize (Y Bs). congruence.
Qed.
Lemma events_app h1 h2 : events_ok (h1 ++ h2)%list -> events_ok h1.
Proof. intros (F & L). apply Forall_app in F as (F & _). split; [exact F|]. rewrite app_length in L. lia. Qed.
(** The records are those of a history of calls on the store. *)
Lemma records_run h1 h2 : events_ok (h1 ++ h2)%list -> exists ops1 ops2,
  records h1 = run ops1 /\ records (h1 ++ h2)%list = run (ops1 ++ ops2)%list
  /\ Forall (board_op_ok Holds) (ops1 ++ ops2)%list /\ (List.length (ops1 ++ ops2)%list <= List.length (h1 ++ h2)%list)%nat.
Proof.
  assert (Step : forall h e, events_ok (h ++ [e])%list -> exists o, records (h ++ [e])%list = board_run print_time parse_time o (records h) /\ Forall (board_op_ok Holds) o /\ (List.length o <= 1)%nat).
  { intros h e (F & L). rewrite serve_snoc. apply Forall_app in F as (_ & F). apply Forall_inv in F. rewrite app_length in L. cbn [List.length] in L. destruct e as [o|q]; cbn [serve_one snd].
    - exists []. split; [reflexivity|]. split; [constructor|cbn; lia].
    - destruct F as (F1 & F2). destruct (accounts_inv h) as (n & Ln & I). unfold board_respond.
      destruct (handle_cases n _ q I) as [(e & m & E & _)|(id & org & a & Rg & _ & E & _)]; rewrite E.
      + exists []. split; [reflexivity|]. split; [constructor|cbn; lia].
      + exists (effect id (bq_now q) (bq_ask q)). rewrite <- call_effect. split; [destruct (board_call _ _ _ _) as [[|] ?]; reflexivity|].
        split; [apply effect_ok; auto|apply effect_length]. unfold u64. lia. }
  assert (One : forall h, events_ok h -> exists ops, records h = run ops /\ Forall (board_op_ok Holds) ops /\ (List.length ops <= List.length h)%nat).
  { induction h as [|e h IH] using rev_ind; intros H; [exists []; repeat split; auto; constructor|].
    destruct (IH (events_app _ _ H)) as (ops & E & F & L). destruct (Step h e H) as (o & E' & F' & L'). exists (ops ++ o)%list.
    rewrite E', E. split; [unfold board_run; now rewrite fold_left_app|]. split; [now apply Forall_app|]. rewrite !app_length. cbn [List.length]. lia. }
  intros H. induction h2 as [|e h2 IH] using rev_ind.
  - rewrite app_nil_r in *. destruct (One h1 H) as (ops & E & F & L). exists ops, []. rewrite !app_nil_r. auto.
  - rewrite app_assoc in H. destruct (IH (events_app _ _ H)) as (o1 & o2 & E1 & E2 & F & L). destruct (Step _ e H) as (o & E' & F' & L').
    exists o1, (o2 ++ o)%list. split; [exact E1|]. rewrite app_assoc, E', E2. split; [rewrite app_assoc; unfold board_run; now rewrite (fold_left_app _ (o1 ++ o2))|].
    rewrite (app_assoc o1). split; [now apply Forall_app|]. rewrite (app_length (o1 ++ o2)), (app_length (h1 ++ h2)). cbn [List.length]. lia.
Qed.
Lemma records_history h1 h2 : events_ok (h1 ++ h2)%list -> exists ops1 ops2,
  records h1 = run ops1 /\ records (h1 ++ h2)%list = run (ops1 ++ ops2)%list /\ hist (ops1 ++ ops2)%list
  /\ N.of_nat (List.length (ops1 ++ ops2)%list) + 1 < 2 ^ 64.
Proof.
  intros H. destruct (records_run h1 h2 H) as (o1 & o2 & E1 & E2 & F & L). destruct H as (_ & Lh). exists o1, o2. repeat split; auto; lia.
Qed.
(** ** What calls answer *)
Lemma dash_cases ops p i : hist ops -> dash_get p i (run ops) = Err NotFound \/ exists d, dash_get p i (run ops) = Ok d.
Proof.
  intros H. destruct (history_inv _ _ _ text_times ops H) as (Hk & Hd & Hr & Hb).
  destruct (Dget p i _ (proj1 (Hd p))) as [[_ X]|(b & x & _ & X & _)]; [left|right; eexists]; exact X.
Qed.
Lemma rep_cases ops p i : hist ops -> rep_get parse_time p i (run ops) = Err NotFound \/ exists d, rep_get parse_time p i (run ops) = Ok d.
Proof.
  intros H. destruct (history_inv _ _ _ text_times ops H) as (Hk & Hd & Hr & Hb).
  destruct (Rget _ _ _ text_times p i _ (proj1 (Hr p))) as [[_ X]|(b & x & _ & X & _)]; [left|right; eexists]; exact X.
Qed.
Lemma book_cases ops p a i : hist ops -> book_get parse_time p a i (run ops) = Err NotFound \/ exists d, book_get parse_time p a i (run ops) = Ok d.
Proof.
  intros H. destruct (history_inv _ _ _ text_times ops H) as (Hk & Hd & Hr & Hb).
  destruct (book_get_ok _ p a i _ Hb) as [[_ X]|(r & _ & X & _)]; eauto.
Qed.
Lemma history_snoc ops o : hist ops -> N.of_nat (List.length ops) + 1 < 2 ^ 64 -> board_op_ok Holds o -> hist (ops ++ [o])%list.
Proof. intros (F & _) L O. split; [apply Forall_app; split; [exact F|now constructor]|]. rewrite app_length. cbn [List.length]. lia. Qed.
Lemma call_cases ops a now k : hist ops -> N.of_nat (List.length ops) + 1 < 2 ^ 64 -> u64 a -> time_ok now -> ask_ok k -> let s := run ops in
  (exists y s', board_call a now k s = (inl y, s') /\ answers s s' a now k y /\ ~ missing s a k)
  \/ (board_call a now k s = (inr (PMetadata MNotFound), s) /\ missing s a k)
  \/ (board_call a now k s = (inr PStopped, s) /\ too_big s a now k /\ ~ missing s a k).
Proof.
  intros H L A T K s. pose proof (effect_ok a now k A T K) as Oks.
  assert (Sn : forall o, In o (effect a now k) -> hist (ops ++ [o])%list).
  { intros o Hin. apply history_snoc; auto. rewrite Forall_forall in Oks. auto. }
  destruct k as [p tags name descr panels|p i|p|p i tags name descr panels|p i|p tags name descr typ query|p i|p|p i tags name descr typ query|p i|p query drawn|p i];
    cbn [board_call missing too_big effect] in *.
  - destruct (C118_dashboard_create_partial _ _ _ text_times ops _ _ _ (Sn _ (or_introl eq_refl))) as (i & _ & Ng & [[E Big]|[E G]]); fold s in Ng, E.
    + right. right. rewrite E. split; [reflexivity|]. split; [exists i; exact Big|tauto].
    + left. fold s in G. rewrite (surjective_pairing (dash_create _ _ _ _)), E. cbn [lift]. do 2 eexists. split; [reflexivity|]. split; [|tauto].
      exists i. split; [reflexivity|]. split; [exact Ng|]. rewrite G, !N.eqb_refl. reflexivity.
  - destruct (dash_cases ops p i H) as [E|(d & E)]; fold s in E; rewrite E; cbn [lift].
    + right. left. auto.
    + left. do 2 eexists. split; [reflexivity|]. split; [exact E|discriminate].
  - destruct (C118_dashboard_list _ _ _ text_times ops p H) as (l & E & F & G & _). fold s in E, F. rewrite E. left. do 2 eexists. split; [reflexivity|]. split; [split; assumption|tauto].
  - destruct (dash_cases ops p i H) as [E|(d & E)].
    + destruct (C118_dashboard_update_partial _ _ _ text_times ops p i _ _ (mkFDashboard (mkStamps 0 0 0 None None) 0 None [] None []) (Sn _ (or_introl eq_refl))) as (U & _).
      specialize (U _ E). fold s in U, E. rewrite U. right. left. auto.
    + destruct (C118_dashboard_update_partial _ _ _ text_times ops p i _ _ d (Sn _ (or_introl eq_refl))) as (_ & U).
      destruct (U E) as (d' & D1 & D2 & D3 & D4 & D5 & D6 & [[X Big]|[X G]]); fold s in E, X.
      * right. right. rewrite X. split; [reflexivity|]. split; [|rewrite E; discriminate]. exists d. split; [exact E|].
        cbn [du_by du_tags du_name du_descr du_panels] in *. rewrite <- D1, <- D2, <- D3, <- D4, <- D5, <- D6. destruct d'. exact Big.
      * left. fold s in G. rewrite (surjective_pairing (dash_update _ _ _ _ _)), X. cbn [lift]. do 2 eexists. split; [reflexivity|]. split; [|rewrite E; discriminate].
        exists d. split; [exact E|]. cbn [du_by du_tags du_name du_descr du_panels] in *. split; [destruct d'; cbn in *; congruence|]. rewrite G, !N.eqb_refl. reflexivity.
  - destruct (C118_dashboard_delete _ _ _ text_times ops p i H) as (G0 & G). fold s in G0, G.
    rewrite (surjective_pairing (dash_delete _ _ _)), G0. destruct (dash_cases ops p i H) as [E|(d & E)]; fold s in E; rewrite E; cbn [lift].
    + right. left. split; [|reflexivity]. f_equal. unfold dash_delete, crud_delete. unfold dash_get in E. now rewrite E.
    + left. do 2 eexists. split; [reflexivity|]. split; [|discriminate]. split; [exact E|]. rewrite G, !N.eqb_refl. reflexivity.
  - destruct (C118_report_create_partial _ _ _ text_times ops _ _ _ (Sn _ (or_introl eq_refl))) as (i & _ & Ng & [[E Big]|[E G]]); fold s in Ng, E.
    + right. right. rewrite E. split; [reflexivity|]. split; [exists i; exact Big|tauto].
    + left. fold s in G. rewrite (surjective_pairing (rep_create _ _ _ _ _)), E. cbn [lift]. do 2 eexists. split; [reflexivity|]. split; [|tauto].
      exists i. split; [reflexivity|]. split; [exact Ng|]. rewrite G, !N.eqb_refl. reflexivity.
  - destruct (rep_cases ops p i H) as [E|(d & E)]; fold s in E; rewrite E; cbn [lift].
    + right. left. auto.
    + left. do 2 eexists. split; [reflexivity|]. split; [exact E|discriminate].
  - destruct (C118_report_list _ _ _ text_times ops p H) as (l & E & F & G & _). fold s in E, F. rewrite E. left. do 2 eexists. split; [reflexivity|]. split; [split; assumption|tauto].
  - destruct (rep_cases ops p i H) as [E|(d & E)].
    + destruct (C118_report_update_partial _ _ _ text_times ops p i _ _ (mkFReport (mkStamps 0 0 0 None None) 0 None [] None RtFunnel match query with Some x => x | None => SQFunnel (mkFunnelQuery (QTBetween 0 0) 0 [] (mkTimeWindow 2 WuDay) FcSteps FcUnique None None None None None None None) end) (Sn _ (or_introl eq_refl))) as (U & _).
      specialize (U _ E). fold s in U, E. rewrite U. right. left. auto.
    + destruct (C118_report_update_partial _ _ _ text_times ops p i _ _ d (Sn _ (or_introl eq_refl))) as (_ & U).
      pose proof (C118_report_type_refuted print_time parse_time Holds ops p i (mkRepUpdate a tags name descr typ query) now d) as Ty.
      destruct (U E) as (d' & D1 & D2 & D3 & D4 & D5 & D6 & [[X Big]|[X G]]).
      * fold s in E, X. right. right. rewrite X. split; [reflexivity|]. split; [|rewrite E; discriminate]. exists d, d'. auto 8.
      * destruct (Ty _ (Sn _ (or_introl eq_refl)) E X) as (Ty' & _). fold s in E, X, G.
        left. rewrite (surjective_pairing (rep_update _ _ _ _ _ _ _)), X. cbn [lift]. do 2 eexists. split; [reflexivity|]. split; [|rewrite E; discriminate].
        exists d. split; [exact E|]. cbn [ru_by ru_tags ru_name ru_descr ru_query] in *. split; [destruct d'; cbn in *; congruence|]. rewrite G, !N.eqb_refl. reflexivity.
  - destruct (C118_report_delete _ _ _ text_times ops p i H) as (G0 & G). fold s in G0, G.
    rewrite (surjective_pairing (rep_delete _ _ _ _)), G0. destruct (rep_cases ops p i H) as [E|(d & E)]; fold s in E; rewrite E; cbn [lift].
    + right. left. split; [|reflexivity]. f_equal. unfold rep_delete, crud_delete. unfold rep_get in E. now rewrite E.
    + left. do 2 eexists. split; [reflexivity|]. split; [|discriminate]. split; [exact E|]. rewrite G, !N.eqb_refl. reflexivity.
  - destruct (C119_bookmark_create_partial _ _ _ text_times ops _ _ _ _ _ (Sn _ (or_introl eq_refl))) as [[E Big]|[E G]]; fold s in E.
    + right. right. rewrite E. split; [reflexivity|]. split; [exact Big|tauto].
    + left. fold s in G. rewrite (surjective_pairing (book_create _ _ _ _ _ _ _)), E. cbn [lift]. do 2 eexists. split; [reflexivity|]. split; [|tauto]. split; [reflexivity|exact G].
  - destruct (book_cases ops p a i H) as [E|(d & E)]; fold s in E; rewrite E; cbn [lift].
    + right. left. auto.
    + left. do 2 eexists. split; [reflexivity|]. split; [exact E|discriminate].
Qed.
(** One request after [h]. *)
Lemma respond_cases h q : events_ok (h ++ [Board q])%list ->
  let s := records h in let sa := accounts h in let r := board_respond q sa s in
  (exists m, r = ((m, None), s) /\ m <> 0 /\ (forall m', refused sa s q m' <-> m' = m) /\ forall id org a, proceeds sa q id org a -> missing s id (bq_ask q))
  \/ (exists id org a, proceeds sa q id org a /\ (forall m, ~ refused sa s q m) /\
       ((r = ((0, None), s) /\ too_big s id (bq_now q) (bq_ask q))
        \/ exists y, fst r = (success (bq_ask q), Some y) /\ answers s (snd r) id (bq_now q) (bq_ask q) y)).
Proof.
  intros H s sa r. destruct (records_history h [Board q] H) as (ops & o2 & E & _ & Hh & L).
  apply history_app in Hh as (Hh & _ & _). rewrite app_length in L. destruct (accounts_inv h) as (n & Ln & I).
  destruct H as (F & Lh). apply Forall_app in F as (_ & F). apply Forall_inv in F as (F1 & F2). rewrite app_length in Lh. cbn [List.length] in Lh.
  unfold r, board_respond. destruct (handle_cases n _ q I) as [(e & m & X & Em & Nz & Rf & Uq & Np)|(id & org & a & Rg & Pr & X & Rf)]; fold sa in X, Rf.
  - left. exists m. rewrite X, Em. split; [reflexivity|]. split; [exact Nz|]. split.
    + intros m'. split; [apply Uq|]. intros ->. apply Rf.
    + intros id org a P. now apply Np in P.
  - fold sa in Pr. rewrite X. assert (A : u64 id) by (unfold u64; lia).
    destruct (call_cases ops id (bq_now q) (bq_ask q) Hh ltac:(lia) A F1 F2) as [(y & s' & Y & An & Nm)|[(Y & Mi)|(Y & Se & Nm)]]; rewrite <- E in *; fold s in Y |- *; rewrite Y.
    + right. exists id, org, a. split; [exact Pr|]. split; [intros m R; apply Rf in R as (_ & R); contradiction|]. right. exists y. split; [reflexivity|exact An].
    + left. exists 404. split; [reflexivity|]. split; [discriminate|]. split.
      * intros m'. rewrite Rf. split; [tauto|]. intros ->. auto.
      * intros id' org' a' (P & _). destruct Pr as (Pr & _). destruct (asks_unique _ _ _ _ _ _ _ _ P Pr) as (-> & _). exact Mi.
    + right. exists id, org, a. split; [exact Pr|]. split; [intros m R; apply Rf in R as (_ & R); contradiction|]. left. auto.
Qed.

(** ** C138 *)
(** The status of a refusal is that of the reason for it, at every moment of every history; a
    request with nothing against it is carried out.  (The server stops, status 0, when a record
    would take 2^63 bytes.) *)
Theorem C138_refusals : forall h q n, events_ok (h ++ [Board q])%list ->
  let r := fst (board_respond q (accounts h) (records h)) in
  (snd r = None /\ fst r = n /\ n <> 0) <-> refused (accounts h) (records h) q n.
Proof.
  intros h q n H r. unfold r. destruct (respond_cases h q H) as [(m & E & Nz & Rf & _)|(id & org & a & Pr & Nr & [(E & _)|(y & E & _)])]; rewrite E; cbn [fst snd].
  - rewrite Rf. split; [now intros (_ & <- & _)|]. intros ->. auto.
  - split; [intros (_ & <- & X); now contradiction X|]. intros X. now apply Nr in X.
  - split; [intros (X & _); discriminate|]. intros X. now apply Nr in X.
Qed.
(** What is carried out was asked with a good token, by an account that is there and has the role;
    it is answered 201 if it makes something and 200 otherwise, with what was asked for: what is
    made is the caller's own. *)
Theorem C138_answers : forall h q y, events_ok (h ++ [Board q])%list ->
  let r := fst (board_respond q (accounts h) (records h)) in
  snd r = Some y ->
  (makes (bq_ask q) /\ fst r = 201 \/ ~ makes (bq_ask q) /\ fst r = 200) /\
  exists id org a, asks (accounts h) q id org a /\ has_role a org (project_of (bq_ask q)) (lowest_role (bq_ask q)) /\
    answers (records h) (records (h ++ [Board q])%list) id (bq_now q) (bq_ask q) y.
Proof.
  intros h q y H r. unfold r. rewrite serve_snoc. cbn [serve_one snd].
  destruct (respond_cases h q H) as [(m & E & Nz & Rf & _)|(id & org & a & (P1 & P2 & P3) & Nr & [(E & _)|(y' & E & An)])]; [rewrite E; discriminate|rewrite E; discriminate|].
  rewrite E. cbn [fst snd]. intros [= <-]. split; [destruct (bq_ask q); cbn; auto|]. exists id, org, a. auto.
Qed.
(** Only a record of 2^63 bytes, in a request that may be made, stops the server. *)
Theorem C138_stops : forall h q, events_ok (h ++ [Board q])%list ->
  fst (fst (board_respond q (accounts h) (records h))) = 0 ->
  exists id org a, asks (accounts h) q id org a /\ has_role a org (project_of (bq_ask q)) (lowest_role (bq_ask q))
    /\ too_big (records h) id (bq_now q) (bq_ask q).
Proof.
  intros h q H. destruct (respond_cases h q H) as [(m & E & Nz & _)|(id & org & a & (P1 & P2 & P3) & Nr & [(E & Se)|(y' & E & An)])]; rewrite E; cbn [fst snd].
  - intros ->. now contradiction Nz.
  - intros _. exists id, org, a. auto.
  - intros X. destruct (bq_ask q); discriminate.
Qed.
(** A request that is refused changes nothing. *)
Theorem C138_refused_changes_nothing : forall h q, events_ok (h ++ [Board q])%list ->
  snd (fst (board_respond q (accounts h) (records h))) = None -> after (h ++ [Board q])%list = after h.
Proof.
  intros h q H. rewrite serve_snoc. cbn [serve_one]. intros X. etransitivity; [|symmetry; apply surjective_pairing]. f_equal.
  destruct (respond_cases h q H) as [(m & E & _)|(id & org & a & _ & _ & [(E & _)|(y & E & _)])]; [now rewrite E|now rewrite E|]. rewrite E in X. discriminate.
Qed.
(** To somebody without the role the answer is the same whatever is stored. *)
Theorem C138_hidden : forall h q s1 s2,
  (forall id org a, asks (accounts h) q id org a -> ~ has_role a org (project_of (bq_ask q)) (lowest_role (bq_ask q))) ->
  fst (board_respond q (accounts h) s1) = fst (board_respond q (accounts h) s2).
Proof.
  intros h q s1 s2 H. destruct (accounts_inv h) as (n & _ & I). unfold board_respond.
  destruct (handle_cases n _ q I) as [(e & m & X & _)|(id & org & a & _ & (P1 & _ & P3) & _)]; [now rewrite !X|]. now apply H in P1.
Qed.
(** A request that somebody with this role made about the project, among [h2] after [h1]. *)
Definition asked (h1 h2 : list Event) (p : N) (role : ProjRole) (about : N -> Ask -> Prop) : Prop :=
  exists h q h' id org a, h2 = (h ++ Board q :: h')%list /\ asks (accounts (h1 ++ h)%list) q id org a /\ has_role a org p role /\
    project_of (bq_ask q) = p /\ about id (bq_ask q).
Lemma unchanged A (see : BStore -> A) (harmless : N -> Ask -> Prop) h1 h2 : events_ok (h1 ++ h2)%list ->
  (forall ops id now k, hist (ops ++ effect id now k)%list -> harmless id k -> see (run (ops ++ effect id now k)%list) = see (run ops)) ->
  (forall h q h' id org a, h2 = (h ++ Board q :: h')%list -> proceeds (accounts (h1 ++ h)%list) q id org a -> harmless id (bq_ask q)) ->
  see (records (h1 ++ h2)%list) = see (records h1).
Proof.
  intros H Ef. induction h2 as [|e h2 IH] using rev_ind; intros Hh; [now rewrite app_nil_r|]. rewrite app_assoc in *.
  rewrite <- IH; [|now apply events_app in H|].
  2:{ intros h q h' id org a -> P. apply (Hh h q (h' ++ [e])%list id org a); [|exact P]. now rewrite <- app_assoc. }
  rewrite serve_snoc. destruct e as [o|q]; [reflexivity|]. cbn [serve_one snd].
  destruct (records_history (h1 ++ h2) [Board q] H) as (ops & o2 & E & _ & Hi & L). apply history_app in Hi as (Hi & _ & _). rewrite app_length in L.
  destruct (accounts_inv (h1 ++ h2)) as (n & Ln & I). destruct H as (F & Lh). apply Forall_app in F as (_ & F). apply Forall_inv in F as (F1 & F2).
  rewrite app_length in Lh. cbn [List.length] in Lh.
  unfold board_respond. destruct (handle_cases n _ q I) as [(x & m & X & _)|(id & org & a & Rg & Pr & X & _)]; rewrite X; [reflexivity|].
  match goal with |- see (snd ?t) = _ => replace (snd t) with (snd (board_call id (bq_now q) (bq_ask q) (records (h1 ++ h2)%list))) by (destruct (board_call _ _ _ _) as [[|] ?]; reflexivity) end.
  rewrite call_effect, E. assert (A' : u64 id) by (unfold u64; lia). pose proof (effect_ok id (bq_now q) (bq_ask q) A' F1 F2) as Oks. pose proof (effect_length id (bq_now q) (bq_ask q)) as Le.
  rewrite <- (Ef ops id (bq_now q) (bq_ask q)); [f_equal; unfold board_run; now rewrite fold_left_app| |].
  - destruct Hi as (Hi & _). split; [now apply Forall_app|]. rewrite app_length. lia.
  - apply (Hh h2 q [] id org a); [reflexivity|exact Pr].
Qed.
(** Dashboards and reports of a project change only when somebody with more than a reader's role
    in it asks. *)
Theorem C138_only_members_change : forall h1 h2 p, events_ok (h1 ++ h2)%list ->
  ~ asked h1 h2 p JMember (fun _ _ => True) ->
  forall i, dash_get p i (records (h1 ++ h2)%list) = dash_get p i (records h1)
    /\ rep_get parse_time p i (records (h1 ++ h2)%list) = rep_get parse_time p i (records h1).
Proof.
  intros h1 h2 p H No i.
  assert (Q : forall h q h' id org a, h2 = (h ++ Board q :: h')%list -> proceeds (accounts (h1 ++ h)%list) q id org a -> ~ (project_of (bq_ask q) = p /\ lowest_role (bq_ask q) = JMember)).
  { intros h q h' id org a E (P1 & _ & P3) (X & Y). apply No. exists h, q, h', id, org, a. rewrite X, Y in P3. auto. }
  split; refine (unchanged _ (fun s => _ p i s) (fun _ k => ~ (project_of k = p /\ lowest_role k = JMember)) h1 h2 H _ Q); intros ops id now k Hk Nk;
    (destruct k; cbn [effect project_of lowest_role] in *; rewrite ?app_nil_r; try reflexivity;
     destruct (C118_kinds_apart _ _ _ text_times _ _ Hk) as (K1 & K2 & _); solve [apply K1; intros [= ->]; now apply Nk|apply K2; intros [= ->]; now apply Nk]).
Qed.
(** Bookmarks change only when their maker, with some role in the project, makes one of the same
    name again. *)
Theorem C138_only_makers_change : forall h1 h2 p id i, events_ok (h1 ++ h2)%list ->
  ~ asked h1 h2 p JReader (fun id' k => id' = id /\ exists query, k = QBookCreate p query i) ->
  book_get parse_time p id i (records (h1 ++ h2)%list) = book_get parse_time p id i (records h1).
Proof.
  intros h1 h2 p id i H No.
  refine (unchanged _ (fun s => book_get parse_time p id i s) (fun id' k => ~ (id' = id /\ exists query, k = QBookCreate p query i)) h1 h2 H _ _).
  - intros ops id' now k Hk Nk. destruct k; cbn [effect] in *; rewrite ?app_nil_r; try reflexivity;
      destruct (C118_kinds_apart _ _ _ text_times _ _ Hk) as (_ & _ & K3); apply K3; cbn [bookmark_of]; try discriminate.
    intros [= -> -> ->]. apply Nk. eauto.
  - intros h q h' id' org a E (P1 & _ & P3) (X & query & Y). apply No. exists h, q, h', id', org, a. rewrite Y in P3 |- *. cbn [project_of lowest_role] in *.
    split; [exact E|]. split; [exact P1|]. split; [exact P3|]. split; [reflexivity|]. eauto.
Qed.
(** Who made a dashboard or report, and when, never changes. *)
Lemma author_run ops2 : forall ops1 p i d, hist (ops1 ++ ops2)%list -> dash_get p i (run ops1) = Ok d ->
  dash_get p i (run (ops1 ++ ops2)%list) = Err NotFound
  \/ exists d', dash_get p i (run (ops1 ++ ops2)%list) = Ok d' /\ sp_by (fdb_stamps d') = sp_by (fdb_stamps d).
Proof.
  induction ops2 as [|o ops2 IH]; intros ops1 p i d H G; [rewrite app_nil_r; eauto|].
  assert (H1 : hist (ops1 ++ [o])%list). { replace (ops1 ++ o :: ops2)%list with ((ops1 ++ [o]) ++ ops2)%list in H by (now rewrite <- app_assoc). now apply history_app in H. }
  assert (Go : forall d', dash_get p i (run (ops1 ++ [o])%list) = Ok d' -> sp_by (fdb_stamps d') = sp_by (fdb_stamps d) ->
    dash_get p i (run (ops1 ++ o :: ops2)%list) = Err NotFound
    \/ exists d', dash_get p i (run (ops1 ++ o :: ops2)%list) = Ok d' /\ sp_by (fdb_stamps d') = sp_by (fdb_stamps d)).
  { intros d' G' B. replace (ops1 ++ o :: ops2)%list with ((ops1 ++ [o]) ++ ops2)%list in * by (now rewrite <- app_assoc).
    destruct (IH _ _ _ _ H G') as [X|(d2 & X & Y)]; [auto|]. right. exists d2. split; [exact X|congruence]. }
  destruct (C118_kinds_apart _ _ _ text_times ops1 o H1) as (K & _).
  destruct o as [p1 q now|p1 id1 q now|p1 id1|p1 q now|p1 id1 q now|p1 id1|p1 a q dr now|p1 a id1]; try (apply (Go d); [rewrite K; [exact G|discriminate]|reflexivity]).
  - apply (Go d); [|reflexivity]. destruct (C118_dashboard_create_partial _ _ _ text_times ops1 p1 q now H1) as (j & _ & Hn & [[E _]|[_ X]]); rewrite run_one; unfold nop; cbn [board_step].
    + rewrite E. exact G.
    + rewrite X. destruct (N.eqb_spec p p1) as [->|]; [|exact G]. destruct (N.eqb_spec i j) as [->|]; [|exact G]. congruence.
  - destruct (dash_cases ops1 p1 id1) as [E|(x & E)]; [now apply history_app in H1| |].
    + destruct (C118_dashboard_update_partial _ _ _ text_times ops1 p1 id1 q now d H1) as (U & _). apply (Go d); [|reflexivity].
      rewrite run_one; unfold nop; cbn [board_step]. rewrite (U _ E). exact G.
    + destruct (C118_dashboard_update_partial _ _ _ text_times ops1 p1 id1 q now x H1) as (_ & U). destruct (U E) as (x' & S1 & _ & _ & _ & _ & _ & [[X _]|[_ X]]).
      * apply (Go d); [|reflexivity]. rewrite run_one; unfold nop; cbn [board_step]. rewrite X. exact G.
      * destruct ((p =? p1) && (i =? id1)) eqn:Eq.
        -- apply (Go (as_read_dashboard x')); [rewrite run_one; unfold nop; cbn [board_step]; rewrite X, Eq; reflexivity|].
           apply andb_prop in Eq as (E1 & E2). apply N.eqb_eq in E1, E2. subst. assert (x = d) by congruence. subst x. destruct x'. cbn in *. rewrite S1. reflexivity.
        -- apply (Go d); [rewrite run_one; unfold nop; cbn [board_step]; rewrite X, Eq; exact G|reflexivity].
  - destruct ((p =? p1) && (i =? id1)) eqn:Eq.
    + apply andb_prop in Eq as (E1 & E2). apply N.eqb_eq in E1, E2. subst. left. exact (C118_deleted_stays_gone _ _ _ text_times ops1 p1 id1 ops2 d H G).
    + apply (Go d); [|reflexivity]. rewrite run_one; unfold nop; cbn [board_step]. apply history_app in H1 as (H1 & _).
      destruct (C118_dashboard_delete _ _ _ text_times ops1 p1 id1 H1) as (_ & X). rewrite X, Eq. exact G.
Qed.
Theorem C138_maker_kept : forall h1 h2 p i d d', events_ok (h1 ++ h2)%list ->
  dash_get p i (records h1) = Ok d -> dash_get p i (records (h1 ++ h2)%list) = Ok d' -> sp_by (fdb_stamps d') = sp_by (fdb_stamps d).
Proof.
  intros h1 h2 p i d d' H G G'. destruct (records_history h1 h2 H) as (o1 & o2 & E1 & E2 & Hh & _). rewrite E1 in G. rewrite E2 in G'.
  destruct (author_run o2 o1 p i d Hh G) as [X|(x & X & Y)]; rewrite X in G'; [discriminate|]. now injection G' as <-.
Qed.
Lemma rep_author_run ops2 : forall ops1 p i d, hist (ops1 ++ ops2)%list -> rep_get parse_time p i (run ops1) = Ok d ->
  rep_get parse_time p i (run (ops1 ++ ops2)%list) = Err NotFound
  \/ exists d', rep_get parse_time p i (run (ops1 ++ ops2)%list) = Ok d' /\ sp_by (frp_stamps d') = sp_by (frp_stamps d).
Proof.
  induction ops2 as [|o ops2 IH]; intros ops1 p i d H G; [rewrite app_nil_r; eauto|].
  assert (H1 : hist (ops1 ++ [o])%list). { replace (ops1 ++ o :: ops2)%list with ((ops1 ++ [o]) ++ ops2)%list in H by (now rewrite <- app_assoc). now apply history_app in H. }
  assert (Go : forall d', rep_get parse_time p i (run (ops1 ++ [o])%list) = Ok d' -> sp_by (frp_stamps d') = sp_by (frp_stamps d) ->
    rep_get parse_time p i (run (ops1 ++ o :: ops2)%list) = Err NotFound
    \/ exists d', rep_get parse_time p i (run (ops1 ++ o :: ops2)%list) = Ok d' /\ sp_by (frp_stamps d') = sp_by (frp_stamps d)).
  { intros d' G' B. replace (ops1 ++ o :: ops2)%list with ((ops1 ++ [o]) ++ ops2)%list in * by (now rewrite <- app_assoc).
    destruct (IH _ _ _ _ H G') as [X|(d2 & X & Y)]; [auto|]. right. exists d2. split; [exact X|congruence]. }
  destruct (C118_kinds_apart _ _ _ text_times ops1 o H1) as (_ & K & _).
  destruct o as [p1 q now|p1 id1 q now|p1 id1|p1 q now|p1 id1 q now|p1 id1|p1 a q dr now|p1 a id1]; try (apply (Go d); [rewrite K; [exact G|discriminate]|reflexivity]).
  - apply (Go d); [|reflexivity]. destruct (C118_report_create_partial _ _ _ text_times ops1 p1 q now H1) as (j & _ & Hn & [[E _]|[_ X]]); rewrite run_one; unfold nop; cbn [board_step].
    + rewrite E. exact G.
    + rewrite X. destruct (N.eqb_spec p p1) as [->|]; [|exact G]. destruct (N.eqb_spec i j) as [->|]; [|exact G]. congruence.
  - destruct (rep_cases ops1 p1 id1) as [E|(x & E)]; [now apply history_app in H1| |].
    + destruct (C118_report_update_partial _ _ _ text_times ops1 p1 id1 q now d H1) as (U & _). apply (Go d); [|reflexivity].
      rewrite run_one; unfold nop; cbn [board_step]. rewrite (U _ E). exact G.
    + destruct (C118_report_update_partial _ _ _ text_times ops1 p1 id1 q now x H1) as (_ & U). destruct (U E) as (x' & S1 & _ & _ & _ & _ & _ & [[X _]|[_ X]]).
      * apply (Go d); [|reflexivity]. rewrite run_one; unfold nop; cbn [board_step]. rewrite X. exact G.
      * destruct ((p =? p1) && (i =? id1)) eqn:Eq.
        -- apply (Go (as_read_report x')); [rewrite run_one; unfold nop; cbn [board_step]; rewrite X, Eq; reflexivity|].
           apply andb_prop in Eq as (E1 & E2). apply N.eqb_eq in E1, E2. subst. assert (x = d) by congruence. subst x. destruct x'. cbn in *. rewrite S1. reflexivity.
        -- apply (Go d); [rewrite run_one; unfold nop; cbn [board_step]; rewrite X, Eq; exact G|reflexivity].
  - destruct ((p =? p1) && (i =? id1)) eqn:Eq.
    + apply andb_prop in Eq as (E1 & E2). apply N.eqb_eq in E1, E2. subst. left. exact (C118_deleted_report_stays_gone _ _ _ text_times ops1 p1 id1 ops2 d H G).
    + apply (Go d); [|reflexivity]. rewrite run_one; unfold nop; cbn [board_step]. apply history_app in H1 as (H1 & _).
      destruct (C118_report_delete _ _ _ text_times ops1 p1 id1 H1) as (_ & X). rewrite X, Eq. exact G.
Qed.
Theorem C138_report_maker_kept : forall h1 h2 p i d d', events_ok (h1 ++ h2)%list ->
  rep_get parse_time p i (records h1) = Ok d -> rep_get parse_time p i (records (h1 ++ h2)%list) = Ok d' -> sp_by (frp_stamps d') = sp_by (frp_stamps d).
Proof.
  intros h1 h2 p i d d' H G G'. destruct (records_history h1 h2 H) as (o1 & o2 & E1 & E2 & Hh & _). rewrite E1 in G. rewrite E2 in G'.
  destruct (rep_author_run o2 o1 p i d Hh G) as [X|(x & X & Y)]; rewrite X in G'; [discriminate|]. now injection G' as <-.
Qed.
End Server.
(** ** Witness: the administrator makes accounts 2, a reader, and 3, a member of project 7; all log
    in (tokens 2 and 4); the member makes a dashboard. *)
Definition C138_at (t : option nat) (k : Ask) : BRequest := mkBRequest 1100500000000 t true k.
Definition C138_new : Ask := QDashCreate 7 (Some [codes "a"]) (codes "Sales") None [mkFPanel 5 1 2 3 4].
Definition C138_h : list Event :=
  [Account (OLogIn 1000 "admin@admin.com" "pw" None);
   Account (OAccCreate 1001 0 (mkCReq "pw" "rea@x.org" None false false None [] [(7, JReader)]) 0);
   Account (OAccCreate 1002 0 (mkCReq "pw" "mem@x.org" None false false None [] [(7, JMember)]) 0);
   Account (OMembership 2 [(1, OrgMember)]); Account (OMembership 3 [(1, OrgMember)]);
   Account (OOrganizations [(1, [2; 3])]);
   Account (OLogIn 1003 "rea@x.org" "pw" None); Account (OLogIn 1004 "mem@x.org" "pw" None);
   Board (C138_at (Some 4%nat) C138_new)].
Definition C138_s := board_serve (fun _ => true) (fun _ _ => true) 900 604800 C138_h (fresh [1] [2] "pw" 0).
Definition C138_say (q : BRequest) : N := fst (fst (board_respond q (fst C138_s) (snd C138_s))).
Example C138_witness : events_ok (C138_h ++ [Board (C138_at (Some 2%nat) C138_new)])%list
  /\ dash_get 7 1 (snd C138_s) = Ok (mkFDashboard (mkStamps 1 1100000000000 3 None None) 7 (Some [codes "a"]) (codes "Sales") None [mkFPanel 5 1 2 3 4])
  /\ map C138_say [C138_at (Some 4%nat) C138_new; C138_at (Some 2%nat) (QDashGet 7 1); C138_at (Some 2%nat) (QDashGet 7 2); C138_at (Some 2%nat) (QDashDelete 7 1);
       C138_at (Some 2%nat) (QDashGet 8 1); C138_at None (QDashGet 7 1); C138_at (Some 3%nat) (QDashGet 7 1); C138_at (Some 2%nat) (QBookCreate 7 None "abc");
       mkBRequest 1100500000000 (Some 4%nat) false C138_new; mkBRequest 1970000000000 (Some 4%nat) true (QDashGet 7 1); C138_at (Some 0%nat) (QDashDelete 7 1)]
     = [201; 200; 404; 403; 403; 401; 401; 201; 400; 401; 200].
Proof.
  split; [split; [|vm_compute; reflexivity]|split; vm_compute; reflexivity].
  repeat (constructor; [first [exact Logic.I|split; [vm_compute; split; congruence|split; [vm_compute; reflexivity|repeat constructor; vm_compute; reflexivity]]]|]); constructor.
Qed.
Print Assumptions C138_refusals.
Print Assumptions C138_answers.
Print Assumptions C138_stops.
Print Assumptions C138_refused_changes_nothing.
Print Assumptions C138_hidden.
Print Assumptions C138_only_members_change.
Print Assumptions C138_only_makers_change.
Print Assumptions C138_maker_kept.
Print Assumptions C138_report_maker_kept.
