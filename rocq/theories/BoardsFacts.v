(** Facts about dashboards, reports and bookmarks. *)
From Coq Require Import List NArith ZArith String Bool Lia Permutation.
From Verif Require Import AMap Order Bytes BytesFacts Value Kv KvKeys KvKeysFacts KvFacts SavedQuery SavedQueryFacts RecCodec RecSpec RecFacts Boards.
Import ListNotations.
Local Open Scope N_scope.

Definition gk (k : Key) (s : BStore) : option (Val (list N)) := kget (render k) s.
Lemma gk_put_eq k v s : gk k (kput (render k) v s) = Some v.
Proof. apply kget_kput_eq. Qed.
Lemma gk_put_ne k k' v s : wf_key k = true -> wf_key k' = true -> k <> k' -> gk k (kput (render k') v s) = gk k s.
Proof. intros W W' Hn. apply kget_kput_ne. intro E. apply Hn. now apply render_inj. Qed.
Lemma gk_del_eq k s : gk k (kdel (render k) s) = None.
Proof. apply kget_kdel_eq. Qed.
Lemma gk_del_ne k k' s : wf_key k = true -> wf_key k' = true -> k <> k' -> gk k (kdel (render k') s) = gk k s.
Proof. intros W W' Hn. apply kget_kdel_ne. intro E. apply Hn. now apply render_inj. Qed.

(** Every key is one of those of the crate, and is there once. *)
Definition keys_ok (s : BStore) : Prop := kwf s /\ forall x, kget x s <> None -> exists k, x = render k /\ wf_key k = true.
Lemma keys_ok_put k v s : wf_key k = true -> keys_ok s -> keys_ok (kput (render k) v s).
Proof.
  intros W [H1 H2]. split; [now apply kwf_kput|]. intros x Hx. rewrite kget_kput in Hx. destruct (String.eqb x (render k)) eqn:E; [|auto].
  apply String.eqb_eq in E. eauto.
Qed.
Lemma keys_ok_del k s : keys_ok s -> keys_ok (kdel (render k) s).
Proof.
  intros [H1 H2]. split; [now apply kwf_kdel|]. intros x Hx. rewrite kget_kdel in Hx. destruct (String.eqb x (render k)); [congruence|auto].
Qed.

Lemma alloc_spec b : alloc b = Some b /\ fits_memory b \/ alloc b = None /\ 2 ^ 63 <= N.of_nat (List.length b).
Proof.
  unfold alloc, fits_memory. destruct (N.of_nat (List.length b) <? 2 ^ 63) eqn:E.
  - left. split; [reflexivity|]. apply N.ltb_lt in E. eapply N.lt_trans; [exact E|]. vm_compute. reflexivity.
  - right. split; [reflexivity|]. now apply N.ltb_ge in E.
Qed.

Section CrudFacts.
Context {R : Type}.
Variables (kind : ProjNs) (write : R -> list N) (read : list N -> option R) (id_of : R -> N).
Variables (ok : N -> R -> Prop) (as_read : R -> R).
Hypothesis Hrt : forall p r, ok p r -> fits_memory (write r) -> read (write r) = Some (as_read r).
Hypothesis Hok : forall p r, ok p r -> ok p (as_read r).
Hypothesis Hidem : forall r, as_read (as_read r) = as_read r.
Hypothesis Hid : forall r, id_of (as_read r) = id_of r.
Notation KD p id := (KData (NProj p kind) id).
Notation KS p := (KSeq (NProj p kind)).

Definition seq_at (p : N) (s : BStore) : N := match gk (KS p) s with Some (VNum n) => n | _ => 0 end.
Record CrudOk (p : N) (s : BStore) : Prop := mkCrudOk
  { co_data : forall id v, gk (KD p id) s = Some v ->
      exists b r, v = VRec b /\ read b = Some r /\ ok p r /\ as_read r = r /\ id_of r = id /\ 1 <= id <= seq_at p s;
    co_seq : gk (KS p) s = None \/ exists n, gk (KS p) s = Some (VNum n) }.

Lemma crud_get_gk p id s : crud_get kind read p id s =
  match gk (KD p id) s with
  | None => Err NotFound
  | Some (VRec b) => match read b with Some r => Ok r | None => Err Panicked end
  | Some _ => Err Panicked
  end.
Proof. reflexivity. Qed.
Lemma crud_get_ok p id s : CrudOk p s ->
  (gk (KD p id) s = None /\ crud_get kind read p id s = Err NotFound)
  \/ exists b r, gk (KD p id) s = Some (VRec b) /\ crud_get kind read p id s = Ok r /\ read b = Some r
       /\ ok p r /\ as_read r = r /\ id_of r = id /\ 1 <= id <= seq_at p s.
Proof.
  intro H. rewrite crud_get_gk. destruct (gk (KD p id) s) as [v|] eqn:E; [right|now left].
  destruct (co_data p s H id v E) as (b & r & -> & Hr & H1 & H2 & H3 & H4). exists b, r. rewrite Hr. repeat split; auto; lia.
Qed.
(** Nothing changes for a key that is kept. *)
Lemma CrudOk_frame p s s' : (forall id, gk (KD p id) s' = gk (KD p id) s) -> gk (KS p) s' = gk (KS p) s -> CrudOk p s -> CrudOk p s'.
Proof.
  intros H1 H2 [D Q]. constructor.
  - intros id v Hv. rewrite H1 in Hv. unfold seq_at. rewrite H2. now apply D.
  - now rewrite H2.
Qed.
Lemma crud_get_frame p id s s' : gk (KD p id) s' = gk (KD p id) s -> crud_get kind read p id s' = crud_get kind read p id s.
Proof. intro H. now rewrite !crud_get_gk, H. Qed.

Lemma KD_ne p id p' id' : (p, id) <> (p', id') -> KD p id <> KD p' id'.
Proof. intros H E. apply H. congruence. Qed.
Lemma pair_dec (a b : N * N) : a = b \/ a <> b.
Proof. destruct a as [a a'], b as [b b']. destruct (N.eq_dec a b), (N.eq_dec a' b'); try (left; congruence); right; congruence. Qed.

Lemma create_spec p mk s : CrudOk p s -> keys_ok s ->
  (forall id, id = seq_at p s + 1 -> ok p (mk id) /\ id_of (mk id) = id) ->
  let r := crud_create kind write id_of p mk s in
  let id := seq_at p s + 1 in
  (r = (Err Panicked, s) /\ 2 ^ 63 <= N.of_nat (List.length (write (mk id))))
  \/ (fst r = Ok (mk id) /\ CrudOk p (snd r) /\ keys_ok (snd r) /\ seq_at p (snd r) = id
      /\ (forall p' id', crud_get kind read p' id' (snd r) = if (p' =? p) && (id' =? id) then Ok (as_read (mk id)) else crud_get kind read p' id' s)
      /\ (forall k, wf_key k = true -> k <> KD p id -> k <> KS p -> gk k (snd r) = gk k s)).
Proof.
  intros Hc Hk Hm r id. unfold r, crud_create, next_seq, next_from.
  change (make_id_seq_key (crud_ns kind p)) with (render (KS p)). fold (gk (KS p) s).
  assert (E : match gk (KS p) s with
    | None => (@Ok N 1, kput (render (KS p)) (VNum 1) s)
    | Some v => match read_num v with Some n => (Ok (n + 1), kput (render (KS p)) (VNum (n + 1)) s) | None => (Err Panicked, s) end
    end = (Ok id, kput (render (KS p)) (VNum id) s)).
  { unfold id, seq_at. destruct (co_seq p s Hc) as [H|[n H]]; rewrite H; reflexivity. }
  rewrite E. destruct (Hm id eq_refl) as [Hmo Hmi].
  destruct (alloc_spec (write (mk id))) as [[Ea Hf]|[Ea Hf]]; rewrite Ea; [right|left; auto].
  cbn [fst snd]. rewrite Hmi. change (make_data_value_key (crud_ns kind p) id) with (render (KD p id)).
  set (s1 := kput (render (KS p)) (VNum id) s). set (s2 := kput (render (KD p id)) (VRec (write (mk id))) s1).
  assert (F : forall k, wf_key k = true -> k <> KD p id -> k <> KS p -> gk k s2 = gk k s).
  { intros k W N1 N2. unfold s2, s1. rewrite !gk_put_ne by (auto; reflexivity). reflexivity. }
  assert (S2 : gk (KS p) s2 = Some (VNum id)).
  { unfold s2. rewrite gk_put_ne by (try reflexivity; discriminate). apply gk_put_eq. }
  assert (D2 : gk (KD p id) s2 = Some (VRec (write (mk id)))) by apply gk_put_eq.
  assert (Q2 : seq_at p s2 = id) by (unfold seq_at; now rewrite S2).
  split; [reflexivity|]. split; [|split; [|split; [exact Q2|split; [|exact F]]]].
  - constructor; [|right; eauto]. intros i v Hv. destruct (N.eq_dec i id) as [->|Hn].
    + rewrite D2 in Hv. injection Hv as <-. exists (write (mk id)), (as_read (mk id)). rewrite Q2. repeat split; auto.
      * now apply (Hrt p).
      * now rewrite Hid.
      * unfold id. lia.
      * lia.
    + rewrite F in Hv by (try reflexivity; congruence). destruct (co_data p s Hc i v Hv) as (b & r0 & ? & ? & ? & ? & ? & ?).
      exists b, r0. rewrite Q2. repeat split; auto; unfold id; lia.
  - unfold s2, s1. apply keys_ok_put; [reflexivity|]. now apply keys_ok_put.
  - intros p' id'. rewrite !crud_get_gk. destruct (pair_dec (p', id') (p, id)) as [Ep|Np].
    + injection Ep as -> ->. rewrite !N.eqb_refl. cbn [andb]. rewrite D2. now rewrite (Hrt p _ Hmo Hf).
    + rewrite F by (try reflexivity; congruence).
      replace ((p' =? p) && (id' =? id)) with false; [reflexivity|]. symmetry. apply andb_false_iff.
      destruct (N.eqb_spec p' p) as [->|]; [|now left]. right. apply N.eqb_neq. congruence.
Qed.

Lemma update_spec p i f s : CrudOk p s -> keys_ok s ->
  (forall r, ok p r -> ok p (f r) /\ id_of (f r) = id_of r) ->
  let u := crud_update kind write read id_of p i f s in
  match crud_get kind read p i s with
  | Ok r => (u = (Err Panicked, s) /\ 2 ^ 63 <= N.of_nat (List.length (write (f r))))
     \/ (fst u = Ok (f r)
         /\ (forall p' i', crud_get kind read p' i' (snd u) = if (p' =? p) && (i' =? i) then Ok (as_read (f r)) else crud_get kind read p' i' s))
  | Err _ => u = (Err NotFound, s)
  end /\ CrudOk p (snd u) /\ keys_ok (snd u) /\ seq_at p (snd u) = seq_at p s
      /\ (forall k, wf_key k = true -> k <> KD p i -> gk k (snd u) = gk k s).
Proof.
  intros Hc Hk Hf u. unfold u, crud_update.
  destruct (crud_get_ok p i s Hc) as [[E ->]|(b & r & E & -> & Hr & Ho & Ha & Hi & Hb)]; [cbn [fst snd]; auto 8|].
  destruct (Hf r Ho) as [Hfo Hfi]. destruct (alloc_spec (write (f r))) as [[Ea Hm]|[Ea Hm]]; rewrite Ea.
  2:{ cbn [fst snd]. auto 8. }
  cbn [fst snd]. rewrite Hfi, Hi. change (make_data_value_key (crud_ns kind p) i) with (render (KD p i)).
  set (s2 := kput (render (KD p i)) (VRec (write (f r))) s).
  assert (F : forall k, wf_key k = true -> k <> KD p i -> gk k s2 = gk k s).
  { intros k W N1. unfold s2. now rewrite gk_put_ne. }
  assert (D2 : gk (KD p i) s2 = Some (VRec (write (f r)))) by apply gk_put_eq.
  assert (S2 : gk (KS p) s2 = gk (KS p) s) by (apply F; [reflexivity|discriminate]).
  assert (Q2 : seq_at p s2 = seq_at p s) by (unfold seq_at; now rewrite S2).
  split; [right; split; [reflexivity|]|split; [|split; [now apply keys_ok_put|split; [exact Q2|exact F]]]].
  - intros p' id'. rewrite !crud_get_gk. destruct (pair_dec (p', id') (p, i)) as [Ep|Np].
    + injection Ep as -> ->. rewrite !N.eqb_refl. cbn [andb]. rewrite D2. now rewrite (Hrt p _ Hfo Hm).
    + rewrite F by (try reflexivity; congruence).
      replace ((p' =? p) && (id' =? i)) with false; [reflexivity|]. symmetry. apply andb_false_iff.
      destruct (N.eqb_spec p' p) as [->|]; [|now left]. right. apply N.eqb_neq. congruence.
  - constructor; [|rewrite S2; apply Hc]. intros j v Hv. rewrite Q2. destruct (N.eq_dec j i) as [->|Hn].
    + rewrite D2 in Hv. injection Hv as <-. exists (write (f r)), (as_read (f r)). repeat split; auto.
      * now apply (Hrt p).
      * now rewrite Hid, Hfi.
      * lia.
      * lia.
    + rewrite F in Hv by (try reflexivity; congruence). now apply Hc.
Qed.

Lemma delete_spec p i s : CrudOk p s -> keys_ok s ->
  let u := crud_delete kind read p i s in
  fst u = crud_get kind read p i s
  /\ (forall p' i', crud_get kind read p' i' (snd u) = if (p' =? p) && (i' =? i) then Err NotFound else crud_get kind read p' i' s)
  /\ CrudOk p (snd u) /\ keys_ok (snd u) /\ seq_at p (snd u) = seq_at p s
  /\ (forall k, wf_key k = true -> k <> KD p i -> gk k (snd u) = gk k s).
Proof.
  intros Hc Hk u. unfold u, crud_delete.
  destruct (crud_get_ok p i s Hc) as [[E G]|(b & r & E & G & Hr & Ho & Ha & Hi & Hb)]; rewrite G; cbn [fst snd].
  { split; [reflexivity|]. split; [|auto 8]. intros p' i'. destruct (N.eqb_spec p' p) as [->|]; [|reflexivity].
    destruct (N.eqb_spec i' i) as [->|]; [exact G|reflexivity]. }
  change (make_data_value_key (crud_ns kind p) i) with (render (KD p i)). set (s2 := kdel (render (KD p i)) s).
  assert (F : forall k, wf_key k = true -> k <> KD p i -> gk k s2 = gk k s).
  { intros k W N1. unfold s2. now rewrite gk_del_ne. }
  assert (D2 : gk (KD p i) s2 = None) by apply gk_del_eq.
  assert (S2 : gk (KS p) s2 = gk (KS p) s) by (apply F; [reflexivity|discriminate]).
  assert (Q2 : seq_at p s2 = seq_at p s) by (unfold seq_at; now rewrite S2).
  split; [reflexivity|]. split; [|split; [|split; [now apply keys_ok_del|split; [exact Q2|exact F]]]].
  - intros p' id'. rewrite !crud_get_gk. destruct (pair_dec (p', id') (p, i)) as [Ep|Np].
    + injection Ep as -> ->. rewrite !N.eqb_refl. cbn [andb]. now rewrite D2.
    + rewrite F by (try reflexivity; congruence).
      replace ((p' =? p) && (id' =? i)) with false; [reflexivity|]. symmetry. apply andb_false_iff.
      destruct (N.eqb_spec p' p) as [->|]; [|now left]. right. apply N.eqb_neq. congruence.
  - constructor; [|rewrite S2; apply Hc]. intros j v Hv. rewrite Q2. destruct (N.eq_dec j i) as [->|Hn].
    + congruence.
    + rewrite F in Hv by (try reflexivity; congruence). now apply Hc.
Qed.

Lemma read_all_spec l : (forall v, In v l -> exists b r, v = VRec b /\ read b = Some r) ->
  exists rs, read_all read l = Ok rs /\ Forall2 (fun v r => exists b, v = VRec b /\ read b = Some r) l rs.
Proof.
  induction l as [|v l IH]; intro H; [exists []; split; [reflexivity|constructor]|].
  destruct (H v (or_introl eq_refl)) as (b & r & -> & Hr). destruct IH as (rs & E & F); [intros w Hw; apply H; now right|].
  exists (r :: rs). cbn [read_all]. rewrite Hr, E. split; [reflexivity|]. constructor; eauto.
Qed.
Lemma list_spec p s : CrudOk p s -> keys_ok s ->
  exists l, crud_list kind read p s = Ok l
    /\ (forall r, In r l <-> crud_get kind read p (id_of r) s = Ok r)
    /\ NoDup (map id_of l).
Proof.
  intros Hc [Hw Hk].
  assert (Pk : forall k v, kget k s = Some v -> (String.prefix (make_data_key (crud_ns kind p)) k = true <-> exists id, k = render (KD p id))).
  { intros k v Hg. destruct (Hk k) as (k' & -> & W); [congruence|]. rewrite (data_prefix_key (NProj p kind) k' W).
    split; intros [id H]; exists id; [now rewrite H|]. apply render_inj in H; auto. }
  unfold crud_list. rewrite list_prefix_filter.
  set (kvs := filter (fun kv => String.prefix (make_data_key (crud_ns kind p)) (fst kv)) (ordered s)).
  assert (In_ : forall k v, In (k, v) kvs <-> exists id, k = render (KD p id) /\ gk (KD p id) s = Some v).
  { intros k v. unfold kvs. rewrite filter_In. cbn [fst].
    assert (In (k, v) (ordered s) <-> kget k s = Some v) as ->.
    { rewrite (kget_In k v s Hw). split; intro I.
      - eapply Permutation_in; [symmetry; apply ordered_perm|exact I].
      - eapply Permutation_in; [apply ordered_perm|exact I]. }
    split.
    - intros [Hg Hp]. apply (Pk k v Hg) in Hp as [id ->]. eauto.
    - intros (id & -> & Hg). split; [exact Hg|]. apply (Pk _ _ Hg). eauto. }
  assert (Nd : NoDup (map fst kvs)).
  { unfold kvs. assert (Ns : NoDup (map fst (ordered s))).
    { eapply Permutation_NoDup; [apply Permutation_map, ordered_perm|exact Hw]. }
    clear -Ns. induction (ordered s) as [|[k v] l IH]; cbn [filter map fst] in *; [constructor|].
    inversion Ns as [|? ? H1 H2]; subst. destruct (String.prefix _ k); cbn [map fst]; [|auto]. constructor; [|auto].
    intro I. apply H1. apply in_map_iff in I as ([k' v'] & E & I). apply filter_In in I as [I _]. apply in_map_iff. now exists (k', v'). }
  clearbody kvs.
  assert (Q : exists l, read_all read (map snd kvs) = Ok l
     /\ Forall2 (fun kv r => fst kv = render (KD p (id_of r)) /\ crud_get kind read p (id_of r) s = Ok r) kvs l).
  { clear Nd Pk Hk Hw. revert In_. intro In_.
    assert (All : forall kv, In kv kvs -> exists b r, snd kv = VRec b /\ read b = Some r /\ fst kv = render (KD p (id_of r)) /\ crud_get kind read p (id_of r) s = Ok r).
    { intros [k v] Hin. apply In_ in Hin as (id & -> & Hg). destruct (co_data p s Hc id v Hg) as (b & r & -> & Hr & _ & _ & Hi & _).
      exists b, r. rewrite crud_get_gk, Hi, Hg, Hr. auto. }
    clear In_. induction kvs as [|kv kvs IH]; [exists []; split; [reflexivity|constructor]|].
    destruct IH as (l & El & Fl); [intros; apply All; now right|]. destruct (All kv (or_introl eq_refl)) as (b & r & E & Hr & Ef & Eg).
    exists (r :: l). cbn [map read_all]. rewrite E, Hr, El. split; [reflexivity|]. constructor; auto. }
  destruct Q as (l & El & Fl). exists l. split; [exact El|]. split.
  - intro r. split.
    + intro Hr. clear -Fl Hr. induction Fl as [|kv x kvs l [_ H] F IH]; [contradiction|]. destruct Hr as [<-|Hr]; auto.
    + intro Hg. rewrite crud_get_gk in Hg. destruct (gk (KD p (id_of r)) s) as [v|] eqn:Ev; [|discriminate].
      assert (Hin : In (render (KD p (id_of r)), v) kvs) by (apply In_; eauto).
      clear -Fl Hin Hg Ev. induction Fl as [|kv x kvs l [H1 H2] F IH]; [contradiction|]. destruct Hin as [->|Hin]; [left|right; auto].
      cbn [fst] in H1. apply render_inj in H1; [|reflexivity|reflexivity]. assert (E : id_of r = id_of x) by congruence.
      rewrite crud_get_gk, <- E, Ev in H2. congruence.
  - clear -Fl Nd. induction Fl as [|kv x kvs l [H1 H2] F IH]; [constructor|]. cbn [map] in *. inversion Nd as [|? ? N1 N2]; subst.
    constructor; [|auto]. intro I. apply N1. rewrite H1. apply in_map_iff in I as (y & Ey & Iy). rewrite <- Ey. clear -F Iy.
    induction F as [|kv z kvs l [H1 H2] F IH]; [contradiction|]. destruct Iy as [->|Iy]; [left; auto|right; auto].
Qed.
End CrudFacts.
