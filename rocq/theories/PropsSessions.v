(** Property C38: sessions. *)
From Coq Require Import List NArith ZArith String Ascii Bool Lia.
From Verif Require Import AMap Kv KvKeys KvKeysFacts KvFacts Md MdOps MdFrame MdIndex MdEntities MdWf.
Import ListNotations.
Local Open Scope string_scope.

(** ** Specification: the session of one user, from the history alone *)
(** [None]: no open session; [Some t]: open, last event at [t]. *)
Definition session_spec (p u : N) (ops : list MdOp) : option Z :=
  fold_left (fun st o =>
    match o with
    | OSession q v t => if N.eqb q p && N.eqb v u then Some t else st
    | OSessionClean q f =>
      if N.eqb q p then match st with Some t => if f (mkSession u t) then None else Some t | None => None end else st
    | _ => st
    end) ops None.

(** ** Facts *)
Definition SessOk (p : N) (s : Store) : Prop :=
  forall u v, kg (KSession p u) s = Some v -> exists t, v = VRec (RSession (mkSession u t)).

Lemma clean_fold p (f : Session -> bool) u (l : list (Val Rec)) : forall s : Store,
  kg (KSession p u) (fold_left (fun (s : Store) (v : Val Rec) => match v with
                        | VRec (RSession se) => if f se then kdel (session_key p (se_user se)) s else s
                        | _ => s
                        end) l s)
  = if existsb (fun v : Val Rec => match v with VRec (RSession se) => f se && N.eqb (se_user se) u | _ => false end) l
    then None else kg (KSession p u) s.
Proof.
  induction l as [|v l IH]; intro s; [reflexivity|]. cbn [fold_left existsb]. rewrite IH.
  destruct v as [| |[]]; try reflexivity. destruct (f s0) eqn:Ef; [|reflexivity]. cbn [andb].
  change (session_key p (se_user s0)) with (render (KSession p (se_user s0))).
  destruct (N.eqb_spec (se_user s0) u) as [->|Ne]; cbn [orb].
  - rewrite kg_del_eq. now destruct (existsb _ l).
  - rewrite kg_del_ne; [reflexivity|reflexivity|reflexivity|congruence].
Qed.

Lemma clean_get snake ops p (f : Session -> bool) u : forallb wf_op ops = true ->
  let s := md_run snake ops [] in SessOk p s ->
  kg (KSession p u) (session_clean p f s) =
    match kg (KSession p u) s with Some (VRec (RSession se)) => if f se then None else kg (KSession p u) s | x => x end.
Proof.
  intros W s Hx. unfold session_clean. rewrite clean_fold. pose proof (fun v => list_sessions snake ops p v W) as L. fold s in L.
  destruct (existsb _ _) eqn:E.
  - apply existsb_exists in E as (v & Hv & Hf). apply L in Hv as (u' & Hk). destruct (Hx _ _ Hk) as (t & ->).
    apply andb_prop in Hf as [Hf Hu]. cbn in Hu. apply N.eqb_eq in Hu. subst u'. rewrite Hk, Hf. reflexivity.
  - destruct (kg (KSession p u) s) as [v|] eqn:Hk; [|reflexivity]. destruct (Hx _ _ Hk) as (t & ->).
    destruct (f (mkSession u t)) eqn:Ef; [|reflexivity]. exfalso.
    assert (T : existsb (fun v : Val Rec => match v with VRec (RSession se) => f se && N.eqb (se_user se) u | _ => false end)
                  (list_prefix (make_data_key (project_ns p "sessions")) s) = true).
    { apply existsb_exists. exists (VRec (RSession (mkSession u t))). split; [apply L; eauto|]. cbn. now rewrite Ef, N.eqb_refl. }
    congruence.
Qed.

Lemma sessions_refine snake p ops : forallb wf_op ops = true -> forall u,
  kg (KSession p u) (md_run snake ops []) = option_map (fun t => VRec (RSession (mkSession u t))) (session_spec p u ops).
Proof.
  induction ops as [|o ops IH] using rev_ind; intros W u; [reflexivity|].
  rewrite forallb_app in W. apply andb_prop in W as [W Wo]. cbn in Wo. rewrite andb_true_r in Wo. specialize (IH W).
  unfold session_spec, md_run. rewrite !fold_left_app. cbn [fold_left]. fold (md_run snake ops []). fold (session_spec p u ops).
  assert (Hx : SessOk p (md_run snake ops [])).
  { intros v w Hv. rewrite IH in Hv. destruct (session_spec p v ops) as [t|]; [|discriminate]. injection Hv as <-. eauto. }
  assert (F : (forall k, in_sessions p k -> ~ touches o k) ->
     kg (KSession p u) (md_step snake o (md_run snake ops [])) = option_map (fun t => VRec (RSession (mkSession u t))) (session_spec p u ops)).
  { intro D. rewrite <- IH. apply (only_kg (touches o)); [apply md_frame, Wo|reflexivity|apply D; reflexivity]. }
  destruct o; try (apply F; intros k0 Hk Ht; try (match goal with kd : PropKind |- _ => destruct kd end);
        destruct k0; cbn in *; try tauto; unfold in_props, in_ns, in_rec, kind_ns in *; cbn in *;
        first [intuition congruence | destruct Ht as [Ht|(x & Ht)]; intuition congruence]).
  - destruct (N.eqb_spec p0 p) as [->|Np]; cbn [andb].
    2:{ apply F. intros k0 Hk Ht. destruct k0; cbn in *; try tauto; congruence. }
    cbn [md_step]. unfold session_set_time. change (kget (session_key p u0) (md_run snake ops [])) with (kg (KSession p u0) (md_run snake ops [])).
    change (session_key p u0) with (render (KSession p u0)). rewrite IH.
    destruct (N.eqb_spec u0 u) as [->|Nu].
    + destruct (session_spec p u ops) as [t0|]; cbn [option_map snd se_user]; apply kg_put_eq.
    + destruct (session_spec p u0 ops) as [t0|]; cbn [option_map snd se_user]; (rewrite kg_put_ne; [apply IH|reflexivity|reflexivity|congruence]).
  - destruct (N.eqb_spec p0 p) as [->|Np].
    2:{ apply F. intros k0 Hk Ht. destruct k0; cbn in *; try tauto; congruence. }
    cbn [md_step]. rewrite clean_get by auto. rewrite IH.
    destruct (session_spec p u ops) as [t0|]; cbn [option_map]; [|reflexivity]. now destruct (f (mkSession u t0)).
Qed.

(** ** C38 *)
(** After any history: tracking reports a new session exactly when the user has none open,
    and looking the session up gives the time of the last event. *)
Theorem C38_session_open_exactly :
  forall snake p u ops t, forallb wf_op ops = true ->
    let s := md_run snake ops [] in
    fst (session_set_time p u t s) = Ok (match session_spec p u ops with None => true | Some _ => false end) /\
    session_by_user p u s = match session_spec p u ops with None => Err NotFound | Some t0 => Ok (mkSession u t0) end.
Proof.
  intros snake p u ops t W s. unfold session_set_time, session_by_user.
  change (kget (session_key p u) s) with (kg (KSession p u) s). unfold s. rewrite sessions_refine by exact W.
  now destruct (session_spec p u ops).
Qed.
Print Assumptions C38_session_open_exactly.

(** cmd/src/lib.rs 369-373: the cleaner keeps a session whose age in whole seconds is below the
    project's limit.  Times: [now] in milliseconds, session times in seconds (sessions.rs 142-149). *)
Definition expired (limit : N) (now : Z) (se : Session) : bool :=
  negb (Z.ltb (Z.quot (now - 1000 * se_time se) 1000) (Z.of_N limit)).

(** The cleaner closes exactly the project's sessions that are [limit] seconds old or older. *)
Theorem C38_expiry_exact :
  forall snake p ops limit now, forallb wf_op ops = true -> (0 < limit)%N ->
    let s := md_run snake ops [] in let s' := session_clean p (expired limit now) s in
    (forall u se, session_by_user p u s' = Ok se <->
        session_by_user p u s = Ok se /\ (now - 1000 * se_time se < 1000 * Z.of_N limit)%Z) /\
    (forall q u, q <> p -> session_by_user q u s' = session_by_user q u s).
Proof.
  intros snake p ops limit now W Hl s s'.
  assert (W' : forallb wf_op (ops ++ [OSessionClean p (expired limit now)]) = true) by (rewrite forallb_app, W; reflexivity).
  assert (E : s' = md_run snake (ops ++ [OSessionClean p (expired limit now)]) []) by (unfold md_run; rewrite fold_left_app; reflexivity).
  assert (B : forall q u, session_by_user q u s = match session_spec q u ops with None => Err NotFound | Some t0 => Ok (mkSession u t0) end)
    by (intros; exact (proj2 (C38_session_open_exactly snake q u ops 0%Z W))).
  assert (B' : forall q u, session_by_user q u s' = match session_spec q u (ops ++ [OSessionClean p (expired limit now)]) with None => Err NotFound | Some t0 => Ok (mkSession u t0) end)
    by (intros; rewrite E; exact (proj2 (C38_session_open_exactly snake q u _ 0%Z W'))).
  assert (A : forall q u, session_spec q u (ops ++ [OSessionClean p (expired limit now)]) =
     if N.eqb p q then match session_spec q u ops with Some t => if expired limit now (mkSession u t) then None else Some t | None => None end
     else session_spec q u ops) by (intros; unfold session_spec; rewrite fold_left_app; reflexivity).
  split.
  - intros u se. rewrite B, B', A, N.eqb_refl. destruct (session_spec p u ops) as [t|]; [|split; [discriminate|intros [? _]; discriminate]].
    unfold expired. cbn [se_time].
    assert (Q : Z.ltb (Z.quot (now - 1000 * t) 1000) (Z.of_N limit) = true <-> (now - 1000 * t < 1000 * Z.of_N limit)%Z).
    { rewrite Z.ltb_lt. set (x := (now - 1000 * t)%Z).
      destruct (Z_lt_le_dec x 0) as [Neg|Pos].
      - assert (Z.quot x 1000 <= 0)%Z by (apply Z.quot_le_upper_bound; lia). lia.
      - rewrite Z.quot_div_nonneg by lia. split; intro H.
        + assert (x / 1000 < Z.of_N limit)%Z as H' by exact H. pose proof (Z.mod_pos_bound x 1000). pose proof (Z.div_mod x 1000). lia.
        + apply Z.div_lt_upper_bound; lia. }
    destruct (Z.ltb _ _) eqn:Ez; cbn [negb].
    + pose proof (proj1 Q eq_refl) as Ez'. split.
      * intros [= <-]. auto.
      * intros [H _]. exact H.
    + split; [discriminate|]. intros [[= <-] H]. cbn in H. apply Q in H. discriminate.
  - intros q u Nq. rewrite B, B', A. apply not_eq_sym, N.eqb_neq in Nq. now rewrite Nq.
Qed.
Print Assumptions C38_expiry_exact.
Example C38_witness :
  let ops := [OSession 1 5 100; OSession 1 6 200; OSession 2 5 100; OSession 1 5 150; OSessionClean 1 (expired 60 211000)] in
  let s := md_run (fun x => x) ops [] in
  session_spec 1 5 ops = None /\ session_spec 1 6 ops = Some 200%Z /\
  fst (session_set_time 1 5 300 s) = Ok true /\ fst (session_set_time 1 6 300 s) = Ok false /\
  session_by_user 2 5 s = Ok (mkSession 5 100).
Proof. vm_compute. repeat split. Qed.
